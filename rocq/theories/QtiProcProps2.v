(** C128: the values variables start with. *)
From Coq Require Import QArith Qcanon.
From Verif Require Import Py Dec XmlUtils Xsd XsdProofs XsdProofs2 Imscp QtiValue QtiExpr QtiSpec QtiProofs QtiProofs2
  QtiProofs3 QtiProofs4 QtiProps QtiProc QtiProcSpec QtiProcProofs QtiProcProofs2 QtiProcProofs3 QtiProcProofs4 QtiProcProps.
Open Scope Z_scope.
Open Scope list_scope.

Section Props.
Context {X : Ext}.

(** ** Specification *)
(** the text [t] denotes the value [a] of base type [b] *)
Definition denotes (b : baseType) (t : str) (a : atom) : Prop :=
  new_single (Some b) (Some (RText t)) = Ok (VSingle (Some b) (Some a)) /\ wf_atom b a.
(** a list of value elements that can be read for the declaration *)
Definition readable (d : declaration) (dv : option (list valueElement)) : Prop :=
  match dv with
  | None => d_card d <> None /\ d_base d <> Some BFile
  | Some l =>
      match d_card d with
      | Some CSingle => exists b x l', l = x :: l' /\ d_base d = Some b /\ exists a, denotes b (ve_text x) a
      | Some CRecord => NoDup (map ve_field l) /\ l <> [] /\
          forall x, In x l -> exists b a, ve_base x = Some b /\ denotes b (ve_text x) a
      | Some _ => exists b, d_base d = Some b /\ l <> [] /\ forall x, In x l -> exists a, denotes b (ve_text x) a
      | None => False
      end
  end.
(** the value [v] is the one the elements give *)
Definition content (d : declaration) (dv : option (list valueElement)) (v : value) : Prop :=
  (card v, base v) = declared_type d /\
  match dv with
  | None => non_null v = false
  | Some l =>
      match v with
      | VSingle (Some b) (Some a) => exists x, hd_error l = Some x /\ denotes b (ve_text x) a
      | VOrdered (Some b) (Some _) => Forall2 (denotes b) (map ve_text l) (members v)
      | VMultiple (Some b) (Some _) => exists atoms, Forall2 (denotes b) (map ve_text l) atoms /\
          forall a, occurs a v = count_occ atom_eq_dec atoms a
      | VRecord (Some m) => forall f b a, assoc f m = Some (b, a) <->
          exists x, In x l /\ ve_field x = f /\ ve_base x = Some b /\ denotes b (ve_text x) a
      | _ => False
      end
  end.
(** what a variable of a new session holds *)
Definition initially (r : role) (v : value) : Prop :=
  match r with
  | Template d | Default d => GetDefaultValue d = Ok v
  | Correct d => GetCorrectValue d = Ok v
  | Response d | Outcome d => (card v, base v) = declared_type d /\ non_null v = false
  | Attempts => v = VSingle (Some BInteger) None
  | Duration => v = VSingle (Some BDuration) None
  | Status => v = VSingle (Some BIdentifier) None
  | Saved _ => False
  end.
(** the value [v] a variable is given from its default value [dv]; [zero]: numbers start at 0.
    Missing from the full property: how often a member of a multiple value occurs *)
Definition starts (zero : bool) (dv v : value) : Prop :=
  card v = card dv /\ base v = base dv /\
  (non_null dv = true -> (card dv <> Some CMultiple -> v = dv) /\ forall a, In a (members v) <-> In a (members dv)) /\
  (non_null dv = false ->
     if zero then (dv = VSingle (Some BInteger) None -> v = integer 0) /\
                  (dv = VSingle (Some BFloat) None -> v = VSingle (Some BFloat) (Some (AFloat (Q2Qc 0)))) /\
                  (dv <> VSingle (Some BInteger) None -> dv <> VSingle (Some BFloat) None -> non_null v = false)
     else non_null v = false).

(** ** Proofs *)
Lemma denotes_atom b t a : denotes b t a -> new_atom b (RText t) = Ok (Some a).
Proof. intros [H _]. apply new_single_atom. exact H. Qed.
Lemma denotes_fun b t a a' : denotes b t a -> denotes b t a' -> a = a'.
Proof. unfold denotes. intros [H _] [H' _]. congruence. Qed.
Lemma denotes_wf b t a : denotes b t a -> wf_atom b a.
Proof. intros [_ H]. exact H. Qed.
Lemma denoted_list b (l : list valueElement) : (forall x, In x l -> exists a, denotes b (ve_text x) a) ->
  exists atoms, Forall2 (denotes b) (map ve_text l) atoms.
Proof.
  induction l as [|x l IH]; intros H; [exists []; constructor|]. destruct (H x (or_introl eq_refl)) as [a Ha].
  destruct IH as [atoms Hl]; [intros y Hy; apply H; right; exact Hy|]. exists (a :: atoms). constructor; assumption.
Qed.
Lemma ordered_texts b l atoms : Forall2 (denotes b) (map ve_text l) atoms -> forall acc,
  ordered_loop (Some b) acc (map (fun x => Some (RText (ve_text x))) l) = (acc ++ map Some atoms, None).
Proof.
  revert atoms. induction l as [|x l IH]; intros atoms H acc; inversion H as [|t a ts atoms' Ha Hl]; subst; cbn [map ordered_loop].
  - rewrite app_nil_r. reflexivity.
  - apply denotes_atom in Ha. rewrite Ha. rewrite (IH _ Hl). rewrite <- app_assoc. reflexivity.
Qed.
Lemma multiple_texts b l atoms : Forall2 (denotes b) (map ve_text l) atoms -> forall acc,
  multiple_loop (Some b) acc (map (fun x => Some (RText (ve_text x))) l) = (fold_left (fun m a => aincr (Some a) m) atoms acc, None).
Proof.
  revert atoms. induction l as [|x l IH]; intros atoms H acc; inversion H as [|t a ts atoms' Ha Hl]; subst; cbn [map multiple_loop fold_left]; [reflexivity|].
  apply denotes_atom in Ha. rewrite Ha. apply (IH _ Hl).
Qed.
Lemma somes_map_Some {A} (l : list A) : somes (map Some l) = l.
Proof. induction l; cbn; congruence. Qed.
Lemma atoms_wf b ts atoms : Forall2 (denotes b) ts atoms -> Forall (wf_atom b) atoms.
Proof. induction 1; constructor; [eapply denotes_wf; eassumption|assumption]. Qed.

Definition rec_inv (l : list valueElement) (m : option (list (str * (baseType * atom)))) : Prop :=
  forall f b a, assoc f (match m with Some m => m | None => [] end) = Some (b, a) <->
    exists x, In x l /\ ve_field x = f /\ ve_base x = Some b /\ denotes b (ve_text x) a.
Lemma record_texts l : forall done m, NoDup (map ve_field (done ++ l)) ->
  (forall x, In x l -> exists b a, ve_base x = Some b /\ denotes b (ve_text x) a) -> rec_inv done m ->
  exists m', defined_record m l = Ok m' /\ rec_inv (done ++ l) m' /\ (m <> None \/ l <> [] -> m' <> None).
Proof.
  induction l as [|x l IH]; intros done m Hn Hl Hm; cbn [defined_record].
  - exists m. rewrite app_nil_r. split; [reflexivity|]. split; [exact Hm|]. intros [K|K]; [exact K|contradiction].
  - destruct (Hl x (or_introl eq_refl)) as (b & a & Eb & Ha). pose proof (proj1 Ha) as Ha'. rewrite Eb, Ha'. cbn [bind record_set].
    assert (E : exists m1, (match m with None => Ok (Some [(ve_field x, (b, a))]) | Some l0 => Ok (Some (sset (ve_field x) (b, a) l0)) end) = Ok (Some m1)
       /\ m1 = sset (ve_field x) (b, a) (match m with Some m => m | None => [] end)) by (destruct m; eexists; split; reflexivity).
    destruct E as (m1 & -> & Em). cbn [bind].
    assert (Hnx : ~ In (ve_field x) (map ve_field done)).
    { rewrite map_app in Hn. cbn [map] in Hn. apply NoDup_remove_2 in Hn. intros K. apply Hn. apply in_or_app. left. exact K. }
    destruct (IH (done ++ [x]) (Some m1)) as (m' & E' & Hinv & Hne).
    + rewrite <- app_assoc. exact Hn.
    + intros y Hy. apply Hl. right. exact Hy.
    + intros f b' a'. rewrite Em. rewrite assoc_sset. destruct (str_eqb f (ve_field x)) eqn:Ef.
      * apply str_eqb_eq in Ef. subst f. split.
        -- intros [= <- <-]. exists x. split; [apply in_or_app; right; left; reflexivity|]. auto.
        -- intros (y & Hy & Ey & Eyb & Hya). apply in_app_iff in Hy. destruct Hy as [Hy|[<-|[]]].
           ++ exfalso. apply Hnx. rewrite <- Ey. apply in_map. exact Hy.
           ++ assert (b' = b) by congruence. subst b'. rewrite (denotes_fun _ _ _ _ Hya Ha). reflexivity.
      * rewrite (Hm f b' a'). split.
        -- intros (y & Hy & R). exists y. split; [apply in_or_app; left; exact Hy|exact R].
        -- intros (y & Hy & Ey & R). apply in_app_iff in Hy. destruct Hy as [Hy|[<-|[]]]; [exists y; auto|].
           subst f. rewrite str_eqb_refl in Ef. discriminate.
    + exists m'. split; [exact E'|]. split; [rewrite <- app_assoc in Hinv; exact Hinv|]. intros _. apply Hne. left. discriminate.
Qed.

Lemma defined_content d dv : readable d dv -> exists v, GetDefinedValue d dv = Ok v /\ content d dv v.
Proof.
  unfold readable, GetDefinedValue, content, declared_type. destruct dv as [l|].
  - destruct (d_card d) as [[]|] eqn:Ec; cbn [new_value bind].
    + intros (b & -> & Hne & Hl). destruct (denoted_list b l Hl) as [atoms Hat]. cbn [set_value].
      unfold set_multiple. rewrite (multiple_texts b l atoms Hat []). change (fold_left _ atoms []) with (bag_of atoms).
      destruct (bag_of atoms) as [|p m] eqn:Eb.
      { apply (proj1 (bag_of_nil atoms)) in Eb. subst. inversion Hat as [K|]. destruct l; [congruence|discriminate]. }
      cbn [finish]. eexists. split; [reflexivity|]. split; [reflexivity|]. exists atoms. split; [exact Hat|]. intros a. rewrite <- Eb.
      eapply bag_occurs. eapply atoms_wf. exact Hat.
    + intros (b & -> & Hne & Hl). destruct (denoted_list b l Hl) as [atoms Hat]. cbn [set_value set_ordered].
      unfold set_ordered. rewrite (ordered_texts b l atoms Hat []). cbn [app].
      destruct atoms as [|a atoms]; [inversion Hat as [K|]; destruct l; [congruence|discriminate]|]. cbn [map finish].
      eexists. split; [reflexivity|]. split; [reflexivity|]. cbn [members]. change (Some a :: map Some atoms) with (map Some (a :: atoms)). rewrite somes_map_Some. exact Hat.
    + intros (Hn & Hne & Hl). destruct (record_texts l [] None Hn Hl) as (m' & E & Hinv & Hm').
      { intros f b a. cbn. split; [discriminate|intros (x & [] & _)]. }
      rewrite E. cbn [bind]. eexists. split; [reflexivity|]. split; [reflexivity|]. destruct m' as [m'|]; [exact Hinv|].
      exfalso. apply Hm'; [right; exact Hne|reflexivity].
    + intros (b & x & l' & -> & -> & a & Ha). exists (VSingle (Some b) (Some a)). split; [exact (proj1 Ha)|]. split; [reflexivity|]. exists x. auto.
    + contradiction.
  - intros [Hc Hb]. destruct (d_card d) as [[]|]; cbn [new_value]; [eexists; split; [reflexivity|split; reflexivity]..| |congruence].
    destruct (d_base d) as [[]|]; cbn [new_single]; try congruence; eexists; (split; [reflexivity|split; reflexivity]).
Qed.

(** Default and correct values are those declared *)
Theorem C128_default d : readable d (d_default d) -> exists v, GetDefaultValue d = Ok v /\ content d (d_default d) v.
Proof. apply defined_content. Qed.
Theorem C128_correct d c m a : d_kind d = KResponse c m a -> readable d c -> exists v, GetCorrectValue d = Ok v /\ content d c v.
Proof. intros E. unfold GetCorrectValue. rewrite E. apply defined_content. Qed.
Theorem C128_not_response d : (forall c m a, d_kind d <> KResponse c m a) -> GetCorrectValue d = new_value (d_card d) (d_base d).
Proof. intros H. unfold GetCorrectValue. destruct (d_kind d); try reflexivity. exfalso. eapply H. reflexivity. Qed.

(** ** A new session *)
Definition writes_ok (i : item) (ws : list (str * value)) : Prop :=
  Forall (fun w => exists r, In (fst w, r) (variables i) /\ initially r (snd w)) ws.
Lemma new_value_null c b v : new_value c b = Ok v -> (card v, base v) = (c, match c with Some CRecord => None | _ => b end) /\ non_null v = false.
Proof.
  destruct c as [[]|]; cbn; try discriminate; try (intros [= <-]; split; reflexivity).
  destruct b as [[]|]; cbn; try discriminate; intros [= <-]; split; reflexivity.
Qed.
Lemma templates_ok i l : incl l (i_templates i) -> forall m m', init_templates l m = Ok m' ->
  exists ws, m' = fold_left write ws m /\ writes_ok i ws.
Proof.
  induction l as [|d l IH]; intros Hl m m' H; cbn [init_templates] in H.
  - injection H as <-. exists []. split; [reflexivity|constructor].
  - destruct (GetDefaultValue d) as [v|] eqn:E; cbn [bind] in H; [|discriminate].
    apply IH in H; [|intros x Hx; apply Hl; right; exact Hx]. destruct H as (ws & -> & Ht).
    exists ((d_id d, v) :: ws). split; [reflexivity|]. constructor; [|exact Ht].
    exists (Template d). split; [apply in_template, Hl; left; reflexivity|exact E].
Qed.
Lemma responses_ok i l : incl l (i_responses i) -> forall m m', init_responses l m = Ok m' ->
  exists ws, m' = fold_left write ws m /\ writes_ok i ws.
Proof.
  induction l as [|d l IH]; intros Hl m m' H; cbn [init_responses] in H.
  - injection H as <-. exists []. split; [reflexivity|constructor].
  - destruct (GetCorrectValue d) as [c|] eqn:Ec; cbn [bind] in H; [|discriminate].
    destruct (GetDefaultValue d) as [v|] eqn:E; cbn [bind] in H; [|discriminate].
    destruct (new_value (d_card d) (d_base d)) as [w|] eqn:Ew; cbn [bind] in H; [|discriminate].
    apply IH in H; [|intros x Hx; apply Hl; right; exact Hx]. destruct H as (ws & -> & Ht).
    apply new_value_null in Ew.
    assert (Hin : In d (i_responses i)) by (apply Hl; left; reflexivity). pose proof (in_response_all i d Hin) as Ha.
    exists ((CORRECT (d_id d), c) :: (DEFAULT (d_id d), v) :: (d_id d, w) :: ws). split; [reflexivity|].
    repeat constructor; [exists (Correct d)|exists (Default d)|exists (Response d)|exact Ht];
        (split; [apply Ha; cbn; auto|cbn [initially snd]; assumption]).
Qed.
Lemma outcomes_ok i l : incl l (i_outcomes i) -> forall m m', init_outcomes l m = Ok m' ->
  exists ws, m' = fold_left write ws m /\ writes_ok i ws.
Proof.
  induction l as [|d l IH]; intros Hl m m' H; cbn [init_outcomes] in H.
  - injection H as <-. exists []. split; [reflexivity|constructor].
  - destruct (GetDefaultValue d) as [v|] eqn:E; cbn [bind] in H; [|discriminate].
    destruct (new_value (d_card d) (d_base d)) as [w|] eqn:Ew; cbn [bind] in H; [|discriminate].
    apply IH in H; [|intros x Hx; apply Hl; right; exact Hx]. destruct H as (ws & -> & Ht).
    apply new_value_null in Ew.
    assert (Hin : In d (i_outcomes i)) by (apply Hl; left; reflexivity). pose proof (in_outcome_all i d Hin) as Ha.
    exists ((DEFAULT (d_id d), v) :: (d_id d, w) :: ws). split; [reflexivity|].
    repeat constructor; [exists (Default d)|exists (Outcome d)|exact Ht]; (split; [apply Ha; cbn; auto|cbn [initially snd]; assumption]).
Qed.

Theorem C128_start i st n r : distinct_names i -> ItemSessionState i = Ok st -> In (n, r) (variables i) ->
  match r with
  | Saved _ => assoc n (s_map st) = None
  | _ => exists v, assoc n (s_map st) = Some v /\ initially r v
  end.
Proof.
  intros Hd H Hn.
  assert (G : match assoc n (s_map st) with Some v => initially r v | None => optional r = true end).
  { destruct (init_typed i Hd st H) as [Hi Hw]. specialize (Hw n r). rewrite Hi in Hw. specialize (Hw Hn).
    destruct (assoc n (s_map st)) as [v|] eqn:Ev; [|exact Hw]. clear Hw.
    unfold ItemSessionState in H. destruct (init_templates (i_templates i) []) as [m1|] eqn:E1; cbn [bind] in H; [|discriminate].
    destruct (init_responses _ _) as [m2|] eqn:E2; cbn [bind] in H; [|discriminate].
    destruct (init_outcomes _ m2) as [m3|] eqn:E3; cbn [bind] in H; [|discriminate]. injection H as <-. cbn [s_map] in Ev.
    apply templates_ok with (i := i) in E1; [|apply incl_refl]. destruct E1 as (w1 & -> & T1).
    apply responses_ok with (i := i) in E2; [|apply incl_refl]. destruct E2 as (w2 & -> & T2).
    apply outcomes_ok with (i := i) in E3; [|apply incl_refl]. destruct E3 as (w3 & -> & T3).
    set (wb := [(numAttempts, VSingle (Some BInteger) None); (duration, VSingle (Some BDuration) None);
              (completionStatus, VSingle (Some BIdentifier) None)]).
    change (assoc n (fold_left write w3 (fold_left write w2 (fold_left write wb (fold_left write w1 [])))) = Some v) in Ev.
    rewrite <- !fold_left_app in Ev. apply writes_assoc in Ev. destruct Ev as [Ev|Ev]; [|discriminate].
    assert (T : writes_ok i (w1 ++ wb ++ w2 ++ w3)).
    { unfold writes_ok. rewrite !Forall_app. repeat split; try assumption.
      repeat constructor; [exists Attempts|exists Duration|exists Status]; (split; [|reflexivity]);
        [apply attempts_in|apply duration_in|apply status_in]. }
    unfold writes_ok in T. rewrite Forall_forall in T. destruct (T _ Ev) as (r' & Hr' & Hv). cbn [fst snd] in *.
    rewrite (role_unique i Hd _ _ _ Hn Hr'). exact Hv. }
  destruct (assoc n (s_map st)) as [v|]; destruct r; cbn [optional] in G; try discriminate; try contradiction; try reflexivity; exists v; auto.
Qed.

(** ** The start of a session and of the first attempt *)
Definition gdef (g : value -> value) (d : declaration) (st : state) : eff :=
  lift st (get_var st (DEFAULT (d_id d))) (fun dv => lift st (CopyValue dv) (fun v => (put st (d_id d) (g v), None))).
Lemma each_defaults g l st st' : (forall d d', In d l -> In d' l -> d_id d = d_id d' -> d = d') ->
  (forall d d', In d l -> In d' l -> DEFAULT (d_id d) <> d_id d') ->
  each (gdef g) l st = (st', None) ->
  (forall n, ~ In n (map d_id l) -> assoc n (s_map st') = assoc n (s_map st)) /\
  (forall d, In d l -> exists dv v, assoc (DEFAULT (d_id d)) (s_map st) = Some dv /\ CopyValue dv = Ok v /\ assoc (d_id d) (s_map st') = Some (g v)).
Proof.
  revert st. induction l as [|x l IH]; intros st Hu Hx H; cbn [each] in H.
  - injection H as <-. split; [reflexivity|intros d []].
  - destruct (gdef g x st) as [st1 [e|]] eqn:E; cbn [andthen] in H; [discriminate|].
    unfold gdef, lift in E. destruct (get_var st (DEFAULT (d_id x))) as [dv|] eqn:Eg; [|discriminate].
    destruct (CopyValue dv) as [v|] eqn:Ec; [|discriminate]. injection E as <-. apply get_var_assoc in Eg.
    destruct (IH (put st (d_id x) (g v))) as [I1 I2]; [intros; apply Hu; cbn; auto|intros; apply Hx; cbn; auto|exact H|].
    split.
    + intros n Hn. cbn [map] in Hn. rewrite I1 by (intros K; apply Hn; right; exact K). cbn [put s_map]. apply assoc_sset_other.
      intros ->. apply Hn. left. reflexivity.
    + assert (J : forall d, In d l -> exists dv v, assoc (DEFAULT (d_id d)) (s_map st) = Some dv /\ CopyValue dv = Ok v /\ assoc (d_id d) (s_map st') = Some (g v)).
      { intros d Hd. destruct (I2 d Hd) as (dv' & v' & A & B). exists dv', v'. split; [|exact B]. rewrite <- A. cbn [put s_map]. symmetry. apply assoc_sset_other.
        apply Hx; cbn; auto. }
      intros d [<-|Hd]; [|apply J, Hd]. destruct (in_dec (list_eq_dec Z.eq_dec) (d_id x) (map d_id l)) as [K|K].
      * apply in_map_iff in K. destruct K as (d & Ed & Hd). rewrite <- (Hu d x); [apply J, Hd|cbn; auto|cbn; auto|exact Ed].
      * exists dv, v. split; [exact Eg|]. split; [exact Ec|]. rewrite I1 by exact K. cbn [put s_map]. apply assoc_sset_same.
Qed.
Definition zeroed (v : value) : value :=
  match v with
  | VSingle (Some BInteger) None => VSingle (Some BInteger) (Some (AInt 0))
  | VSingle (Some BFloat) None => VSingle (Some BFloat) (Some (AFloat q0))
  | _ => v
  end.
Lemma copy_null v w : non_null v = false -> CopyValue v = Ok w -> w = v.
Proof.
  destruct v as [|bt|bt [a|]|bt [l|]|bt [m|]|[l|]]; cbn; try discriminate; intros _; unfold CopyValue; cbn [card base new_value bind].
  - destruct bt as [[]|]; cbn; congruence.
  - cbn. congruence.
  - cbn. congruence.
  - cbn. congruence.
Qed.
Lemma copy_starts z dv w : wf_value dv -> CopyValue dv = Ok w -> starts z dv (if z then zeroed w else w).
Proof.
  intros Hw Ec. destruct (non_null dv) eqn:En.
  - assert (K : non_null w = true /\ card w = card dv /\ base w = base dv /\ (card dv <> Some CMultiple -> w = dv) /\ (forall a, In a (members w) <-> In a (members dv))).
    { destruct (base dv) as [b|] eqn:Eb.
      - destruct (C87_copy_partial dv b Hw En Eb) as (w' & Ew & Kc & Kb & Kw & K1 & K2). assert (w' = w) by congruence. subst w'.
        split; [|rewrite Eb in Kb; auto]. 
        destruct dv as [|bt|bt [a|]|bt [l|]|bt [m|]|[l|]]; cbn in En; try discriminate; try (rewrite K1 by (cbn; discriminate); reflexivity).
        cbn in Hw, Eb. subst bt. destruct w as [| | | |bt' [m'|]|]; try discriminate; [reflexivity|].
        exfalso. destruct Hw as (Hne & _ & Hm). destruct m as [|[k n] m]; [congruence|]. inversion Hm as [|x y (Kp & a & Ka & _) _]; subst.
        cbn [fst snd] in *. subst k. apply (K2 a). cbn [members flat_map fst snd somes]. destruct (Z.to_nat n) eqn:Z1; [|cbn; auto].
        lia.
      - destruct dv as [|bt|bt [a|]|bt [l|]|bt [m|]|[l|]]; cbn in En, Eb; try discriminate; subst; cbn in Hw; try contradiction.
        destruct l as [|p l]; [destruct Hw as [Hw _]; congruence|].
        rewrite (C87_copy_record _ (p :: l) eq_refl ltac:(discriminate)) in Ec. injection Ec as <-. repeat split; auto. }
    destruct K as (Kn & Kc & Kb & K1 & K2).
    assert (Ez : (if z then zeroed w else w) = w) by (destruct z; [|reflexivity]; destruct w as [| |[[]|] []| | |]; try reflexivity; discriminate).
    rewrite Ez. split; [exact Kc|]. split; [exact Kb|]. split; [auto|congruence].
  - rewrite (copy_null _ _ En Ec) in *. unfold starts. destruct z; cbn [zeroed].
    + split; [destruct dv as [| |[[]|] []| | |]; reflexivity|]. split; [destruct dv as [| |[[]|] []| | |]; reflexivity|]. split; [congruence|]. intros _.
      split; [intros ->; reflexivity|]. split; [intros ->; reflexivity|]. intros H1 H2. destruct dv as [| |[[]|] []| | |]; try exact En; congruence.
    + split; [reflexivity|]. split; [reflexivity|]. split; [congruence|auto].
Qed.
Lemma outcome_gdef d st : outcome_default d st = gdef zeroed d st.
Proof. reflexivity. Qed.
Lemma each_ext' {A} (f g : A -> state -> eff) l : (forall x st, f x st = g x st) -> forall st, each f l st = each g l st.
Proof.
  intros H. induction l as [|x l IH]; intros st; cbn [each]; [reflexivity|]. rewrite H. destruct (g x st) as [s [e|]]; cbn [andthen]; [reflexivity|apply IH].
Qed.

Section Item.
Variable i : item.
Hypothesis Hd : distinct_names i.
Lemma outcome_unique d d' : In d (i_outcomes i) -> In d' (i_outcomes i) -> d_id d = d_id d' -> d = d'.
Proof.
  intros H H' E. assert (K : Outcome d = Outcome d'); [|congruence]. apply (role_unique i Hd (d_id d)).
  - apply (in_outcome_all i d H). cbn. auto.
  - rewrite E. apply (in_outcome_all i d' H'). cbn. auto.
Qed.
Lemma outcome_default_name d d' : In d (i_outcomes i) -> In d' (i_outcomes i) -> DEFAULT (d_id d) <> d_id d'.
Proof.
  intros H H' E. assert (K : Default d = Outcome d'); [|discriminate]. apply (role_unique i Hd (d_id d')).
  - rewrite <- E. apply (in_outcome_all i d H). cbn. auto.
  - apply (in_outcome_all i d' H'). cbn. auto.
Qed.
Lemma response_unique d d' : In d (i_responses i) -> In d' (i_responses i) -> d_id d = d_id d' -> d = d'.
Proof.
  intros H H' E. assert (K : Response d = Response d'); [|congruence]. apply (role_unique i Hd (d_id d)).
  - apply (in_response_all i d H). cbn. auto.
  - rewrite E. apply (in_response_all i d' H'). cbn. auto.
Qed.
Lemma response_default_name d d' : In d (i_responses i) -> In d' (i_responses i) -> DEFAULT (d_id d) <> d_id d'.
Proof.
  intros H H' E. assert (K : Default d = Response d'); [|discriminate]. apply (role_unique i Hd (d_id d')).
  - rewrite <- E. apply (in_response_all i d H). cbn. auto.
  - apply (in_response_all i d' H'). cbn. auto.
Qed.

Theorem C128_session_partial st st' d dv : s_item st = i -> BeginSession st = (st', None) -> In d (i_outcomes i) ->
  assoc (d_id d ++ lit ".DEFAULT") (s_map st) = Some dv -> wf_value dv ->
  exists v, assoc (d_id d) (s_map st') = Some v /\ starts true dv v.
Proof.
  intros Hi H Hin Hdv Hw. unfold BeginSession in H.
  pose proof (poke_step i Hd (fun _ => True) completionStatus Status (AIdent (lit "not_attempted")) st (status_in i) I Hi) as [[T1 _] _].
  destruct (poke completionStatus _ st) as [st1 [e|]] eqn:E1; cbn [andthen fst] in *; [discriminate|].
  destruct (SetOutcomeDefaults st1) as [st2 [e|]] eqn:E2; cbn [andthen fst] in *; [discriminate|].
  unfold SetOutcomeDefaults in E2. rewrite T1, Hi in E2. rewrite (each_ext' _ (gdef zeroed) _ outcome_gdef) in E2.
  destruct (each_defaults zeroed (i_outcomes i) st1 st2) as [_ G]; [apply outcome_unique|apply outcome_default_name|exact E2|].
  destruct (G d Hin) as (dv' & v & A & B & C).
  destruct (poke numAttempts (AInt 0) st2) as [st3 [e|]] eqn:E3; cbn [andthen] in H; [discriminate|].
  assert (Nd : In (d_id d, Outcome d) (variables i)) by (apply (in_outcome_all i d Hin); cbn; auto).
  assert (Ndd : In (DEFAULT (d_id d), Default d) (variables i)) by (apply (in_outcome_all i d Hin); cbn; auto).
  rewrite (poke_other _ _ _ _ _ E1) in A by (intros K; rewrite K in Ndd; pose proof (role_unique i Hd _ _ _ Ndd (status_in i)); discriminate).
  change (d_id d ++ lit ".DEFAULT") with (DEFAULT (d_id d)) in Hdv. assert (dv' = dv) by congruence. subst dv'.
  exists (zeroed v). split.
  - rewrite (poke_other _ _ _ _ _ H) by (intros K; rewrite K in Nd; pose proof (role_unique i Hd _ _ _ Nd (duration_in i)); discriminate).
    rewrite (poke_other _ _ _ _ _ E3) by (intros K; rewrite K in Nd; pose proof (role_unique i Hd _ _ _ Nd (attempts_in i)); discriminate). exact C.
  - apply (copy_starts true dv v Hw B).
Qed.

Theorem C128_attempt_partial st st' d dv : s_item st = i -> BeginAttempt st = (st', None) ->
  assoc (lit "numAttempts") (s_map st) = Some (integer 0) -> In d (i_responses i) ->
  assoc (d_id d ++ lit ".DEFAULT") (s_map st) = Some dv -> wf_value dv ->
  exists v, assoc (d_id d) (s_map st') = Some v /\ starts false dv v.
Proof.
  intros Hi H Hat Hin Hdv Hw. unfold BeginAttempt, lift in H. destruct (get_var st numAttempts) as [nv|] eqn:Ev; [|discriminate].
  apply get_var_assoc in Ev. change (lit "numAttempts") with numAttempts in Hat. assert (nv = integer 0) by congruence. subst nv.
  unfold integer in H. cbn [set_value parse_single in_range] in H. change (in_range (0 + 1)) with true in H. cbn [andthen] in H.
  change (0 + 1 =? 1) with true in H. cbv iota in H. cbn [put s_item] in H.
  match type of H with andthen (each response_default _ ?s) _ = _ => set (st1' := s) in H end.
  rewrite Hi in H. destruct (each response_default (i_responses i) st1') as [st2 [e|]] eqn:E2; cbn [andthen] in H; [discriminate|].
  change response_default with (gdef (fun v => v)) in E2.
  destruct (each_defaults (fun v => v) (i_responses i) st1' st2) as [_ G]; [apply response_unique|apply response_default_name|exact E2|].
  destruct (G d Hin) as (dv' & v & A & B & C).
  assert (Nd : In (d_id d, Response d) (variables i)) by (apply (in_response_all i d Hin); cbn; auto).
  assert (Ndd : In (DEFAULT (d_id d), Default d) (variables i)) by (apply (in_response_all i d Hin); cbn; auto).
  assert (A' : assoc (DEFAULT (d_id d)) (s_map st1') = assoc (DEFAULT (d_id d)) (s_map st)).
  { unfold st1'. cbn [put s_map]. apply assoc_sset_other. intros K. rewrite K in Ndd. pose proof (role_unique i Hd _ _ _ Ndd (attempts_in i)). discriminate. }
  rewrite A' in A. change (d_id d ++ lit ".DEFAULT") with (DEFAULT (d_id d)) in Hdv. assert (dv' = dv) by congruence. subst dv'.
  destruct (new_single _ _) as [u|]; [|discriminate]. injection H as <-. exists v. split.
  - cbn [put s_map]. rewrite assoc_sset_other; [exact C|]. intros K. rewrite K in Nd. pose proof (role_unique i Hd _ _ _ Nd (status_in i)). discriminate.
  - apply (copy_starts false dv v Hw B).
Qed.

(** The start of a session and of an attempt do not fail *)
Lemma gdef_total g l : forall st, (forall d, In d l -> exists dv v, assoc (DEFAULT (d_id d)) (s_map st) = Some dv /\ CopyValue dv = Ok v) ->
  (forall d d', In d l -> In d' l -> DEFAULT (d_id d) <> d_id d') -> snd (each (gdef g) l st) = None.
Proof.
  induction l as [|x l IH]; intros st H Hx; cbn [each]; [reflexivity|].
  destruct (H x (or_introl eq_refl)) as (dv & v & A & B). unfold gdef at 1, lift, get_var. rewrite A, B. cbn [andthen]. apply IH.
  - intros d Hin. destruct (H d (or_intror Hin)) as (dv' & v' & A' & B'). exists dv', v'. split; [|exact B']. cbn [put s_map].
    rewrite assoc_sset_other; [exact A'|]. apply Hx; cbn; auto.
  - intros. apply Hx; cbn; auto.
Qed.
Lemma copy_ok dv : wf_value dv -> card dv <> None -> base dv <> Some BFile -> exists v, CopyValue dv = Ok v.
Proof.
  intros Hw Hc Hb. destruct (non_null dv) eqn:En.
  - destruct (base dv) as [b|] eqn:Eb.
    + destruct (C87_copy_partial dv b Hw En Eb) as (w & Ew & _). eauto.
    + destruct dv as [|bt|bt [a|]|bt [l|]|bt [m|]|[l|]]; cbn in En, Eb; try discriminate; subst; cbn in Hw; try contradiction.
      rewrite (C87_copy_record _ l eq_refl (proj1 Hw)). eauto.
  - destruct dv as [|bt|bt [a|]|bt [l|]|bt [m|]|[l|]]; cbn in En; try discriminate; cbn in Hc; try congruence;
      try (eexists; reflexivity). destruct bt as [[]|]; cbn in Hb; try congruence; eexists; reflexivity.
Qed.
Lemma poke_total n r a st b : In (n, r) (variables i) -> s_item st = i -> well_typed st -> type_of r = (Some CSingle, b) -> optional r = false ->
  snd (poke n a st) = None.
Proof.
  intros Hn Hi Hw Ht Ho. unfold poke, lift, get_var. specialize (Hw n r). rewrite Hi in Hw. specialize (Hw Hn).
  destruct (assoc n (s_map st)) as [v|]; [|congruence]. rewrite Ht in Hw. destruct v; try discriminate. reflexivity.
Qed.
Theorem C128_session_total st : s_item st = i -> well_typed st ->
  (forall d, In d (i_outcomes i) -> exists dv, assoc (d_id d ++ lit ".DEFAULT") (s_map st) = Some dv /\ wf_value dv /\ card dv <> None /\ base dv <> Some BFile) ->
  snd (BeginSession st) = None.
Proof.
  intros Hi Hw H. unfold BeginSession.
  pose proof (poke_total completionStatus Status (AIdent (lit "not_attempted")) st _ (status_in i) Hi Hw eq_refl eq_refl) as P1.
  pose proof (poke_step i Hd (fun _ => True) completionStatus Status (AIdent (lit "not_attempted")) st (status_in i) I Hi) as [[T1 _] W1].
  destruct (poke completionStatus _ st) as [st1 o] eqn:E1. cbn [fst snd andthen] in *. subst o.
  assert (P2 : snd (SetOutcomeDefaults st1) = None).
  { unfold SetOutcomeDefaults. rewrite T1, Hi. rewrite (each_ext' _ (gdef zeroed) _ outcome_gdef). apply gdef_total; [|apply outcome_default_name].
    intros d Hin. destruct (H d Hin) as (dv & A & B & C & D). destruct (copy_ok dv B C D) as [v Ev]. exists dv, v. split; [|exact Ev].
    assert (Ndd : In (DEFAULT (d_id d), Default d) (variables i)) by (apply (in_outcome_all i d Hin); cbn; auto).
    rewrite (poke_other _ _ _ _ _ E1) by (intros K; rewrite K in Ndd; pose proof (role_unique i Hd _ _ _ Ndd (status_in i)); discriminate).
    exact A. }
  pose proof (SetOutcomeDefaults_step i Hd st1 (eq_trans T1 Hi)) as [[T2 _] W2].
  destruct (SetOutcomeDefaults st1) as [st2 o] eqn:E2. cbn [fst snd andthen] in *. subst o.
  assert (Hi2 : s_item st2 = i) by congruence. specialize (W2 (W1 Hw)).
  pose proof (poke_total numAttempts Attempts (AInt 0) st2 _ (attempts_in i) Hi2 W2 eq_refl eq_refl) as P3.
  pose proof (poke_step i Hd (fun _ => True) numAttempts Attempts (AInt 0) st2 (attempts_in i) I Hi2) as [[T3 _] W3].
  destruct (poke numAttempts _ st2) as [st3 o] eqn:E3. cbn [fst snd andthen] in *. subst o.
  eapply poke_total; [apply duration_in|congruence|apply W3, W2|reflexivity|reflexivity].
Qed.
Theorem C128_attempt_total st n : s_item st = i -> assoc (lit "numAttempts") (s_map st) = Some (integer n) -> 0 <= n < 2147483647 ->
  x_ncname (lit "unknown") = true ->
  (forall d, In d (i_responses i) -> exists dv, assoc (d_id d ++ lit ".DEFAULT") (s_map st) = Some dv /\ wf_value dv /\ card dv <> None /\ base dv <> Some BFile) ->
  snd (BeginAttempt st) = None.
Proof.
  intros Hi Hat Hn Hx H. unfold BeginAttempt, lift, get_var. change (lit "numAttempts") with numAttempts in Hat. rewrite Hat.
  unfold integer. cbn [set_value parse_single]. assert (R : in_range (n + 1) = true) by (unfold in_range; lia). rewrite R. cbn [andthen].
  destruct (n + 1 =? 1); [|reflexivity]. match goal with |- snd (andthen (each response_default _ ?s) _) = _ => set (st1 := s) end.
  assert (P : snd (each response_default (i_responses (s_item st1)) st1) = None).
  { change (s_item st1) with (s_item st). rewrite Hi. change response_default with (gdef (fun v => v)). apply gdef_total; [|apply response_default_name].
    intros d Hin. destruct (H d Hin) as (dv & A & B & C & D). destruct (copy_ok dv B C D) as [v Ev]. exists dv, v. split; [|exact Ev].
    assert (Ndd : In (DEFAULT (d_id d), Default d) (variables i)) by (apply (in_response_all i d Hin); cbn; auto).
    unfold st1. cbn [put s_map]. rewrite assoc_sset_other; [exact A|]. intros K. rewrite K in Ndd. pose proof (role_unique i Hd _ _ _ Ndd (attempts_in i)). discriminate. }
  destruct (each _ _ st1) as [st2 o]. cbn [snd] in P. subst o. cbn [andthen new_single parse_single bind]. rewrite Hx. reflexivity.
Qed.
End Item.
End Props.

(** An item with default values of every cardinality *)
Definition v (s : string) : valueElement := mkVE [] None (lit s).
Definition c128_item : item := mkItem []
  [mkDecl (lit "R") (Some CMultiple) (Some BIdentifier) (Some [v "B"; v "A"; v "B"]) (KResponse (Some [v "A"]) None None)]
  [mkDecl (lit "O") (Some COrdered) (Some BInteger) (Some [v "3"; v "1"; v "3"]) KOutcome;
   mkDecl (lit "S") (Some CRecord) None (Some [mkVE (lit "x") (Some BInteger) (lit "7"); mkVE (lit "y") (Some BIdentifier) (lit "P")]) KOutcome;
   mkDecl (lit "N") (Some CSingle) (Some BFloat) None KOutcome] false.
Example ex_C128 : let H := demo in distinct_names c128_item /\
  (forall d, In d (i_outcomes c128_item) -> readable d (d_default d)) /\
  exists st st' st'', ItemSessionState c128_item = Ok st /\ BeginSession st = (st', None) /\ BeginAttempt st' = (st'', None) /\
    assoc (lit "S") (s_map st') = Some (VRecord (Some [(lit "x", (BInteger, AInt 7)); (lit "y", (BIdentifier, AIdent (lit "P")))])) /\
    assoc (lit "O") (s_map st') = Some (VOrdered (Some BInteger) (Some [Some (AInt 3); Some (AInt 1); Some (AInt 3)])) /\
    assoc (lit "N") (s_map st') = Some (VSingle (Some BFloat) (Some (AFloat (Q2Qc 0)))) /\
    assoc (lit "R.DEFAULT") (s_map st') = Some (VMultiple (Some BIdentifier) (Some [(Some (AIdent (lit "B")), 2); (Some (AIdent (lit "A")), 1)])) /\
    assoc (lit "R") (s_map st'') = Some (VMultiple (Some BIdentifier) (Some [(Some (AIdent (lit "B")), 1); (Some (AIdent (lit "A")), 1)])).
Proof.
  intros H. split; [unfold distinct_names; repeat constructor; cbn; intuition discriminate|]. split.
  - intros d [<-|[<-|[<-|[]]]].
    + exists BInteger. split; [reflexivity|]. split; [discriminate|]. intros x [<-|[<-|[<-|[]]]]; eexists; (split; [vm_compute; reflexivity|cbn; unfold int32; lia]).
    + split; [repeat constructor; cbn; intuition discriminate|]. split; [discriminate|].
      intros x [<-|[<-|[]]]; do 2 eexists; (split; [reflexivity|split; [vm_compute; reflexivity|cbn; unfold int32; try lia; reflexivity]]).
    + split; discriminate.
  - do 3 eexists. repeat (split; [vm_compute; reflexivity|]). vm_compute. reflexivity.
Qed.

(** A multiple default value loses its repeated members *)
Theorem C128_refuted : exists (X : Ext) i st st' st'' a dv w, distinct_names i /\ ItemSessionState i = Ok st /\
  BeginSession st = (st', None) /\ BeginAttempt st' = (st'', None) /\
  assoc (lit "R.DEFAULT") (s_map st) = Some dv /\ assoc (lit "R") (s_map st'') = Some w /\ occurs a w <> occurs a dv.
Proof.
  exists demo, c128_item. do 3 eexists. exists (AIdent (lit "B")). do 2 eexists.
  split; [unfold distinct_names; repeat constructor; cbn; intuition discriminate|].
  repeat (split; [vm_compute; reflexivity|]). vm_compute. discriminate.
Qed.

Print Assumptions C128_refuted.
Print Assumptions C128_default.
Print Assumptions C128_correct.
Print Assumptions C128_not_response.
Print Assumptions C128_start.
Print Assumptions C128_session_partial.
Print Assumptions C128_session_total.
Print Assumptions C128_attempt_partial.
Print Assumptions C128_attempt_total.
