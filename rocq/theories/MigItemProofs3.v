(** Proofs about the variables of a converted item: response processing and the whole item. *)
From Coq Require Import Lia QArith Qcanon.
From Verif Require Import Py Iso Dec XmlUtils XmlChars Xsd Shapes QtiValue QtiExpr QtiSpec QtiProc QtiProcSpec
  V1Mig V1MigSpec V1MigProofs2 MigWrite MigItem MigItemSpec MigItemProofs MigItemProofs2.
Open Scope Z_scope.
Open Scope list_scope.

(** The tests only look at the responses *)
Definition same_responses (s s' : MigItem.state) : Prop := forall id, GetResponse s id = GetResponse s' id.
Lemma get_same_responses s0 s : inv s0 -> responses s = responses s0 ->
  (forall id n, In (id, n) (responses s0) -> dget n (variables s) = dget n (variables s0)) -> same_responses s s0.
Proof.
  intros I Hr Hv [id|]; [|reflexivity]. unfold GetResponse. rewrite Hr. destruct (dget id (responses s0)) as [n|] eqn:E; [|reflexivity].
  rewrite (Hv id n); [reflexivity|]. apply dget_in, E.
Qed.
Section TestInd.
Variable P : test -> Prop.
Hypothesis HEqual : forall c id i t, P (TEqual c id i t).
Hypothesis HIneq : forall op id i t, P (TIneq op id i t).
Hypothesis HSubset : forall id i t, P (TSubset id i t).
Hypothesis HSubstring : forall c id i t, P (TSubstring c id i t).
Hypothesis HInside : forall a id i t, P (TInside a id i t).
Hypothesis HUnanswered : forall id, P (TUnanswered id).
Hypothesis HOther : P TOther.
Hypothesis HNot : forall l, Forall P l -> P (TNot l).
Hypothesis HAnd : forall l, Forall P l -> P (TAnd l).
Hypothesis HOr : forall l, Forall P l -> P (TOr l).
Hypothesis HUnsupported : P TUnsupported.
Fixpoint test_ind' (e : test) : P e :=
  let all := fix all l : Forall P l := match l with [] => Forall_nil _ | e :: l' => Forall_cons _ (test_ind' e) (all l') end in
  match e with
  | TEqual c id i t => HEqual c id i t
  | TIneq op id i t => HIneq op id i t
  | TSubset id i t => HSubset id i t
  | TSubstring c id i t => HSubstring c id i t
  | TInside a id i t => HInside a id i t
  | TUnanswered id => HUnanswered id
  | TOther => HOther
  | TNot l => HNot l (all l)
  | TAnd l => HAnd l (all l)
  | TOr l => HOr l (all l)
  | TUnsupported => HUnsupported
  end.
End TestInd.
Lemma map_concat_ext {A B} (f g : A -> result (list B)) l : Forall (fun x => f x = g x) l -> map_concat f l = map_concat g l.
Proof. induction 1 as [|x l H _ IH]; [reflexivity|]. cbn [map_concat]. rewrite H, IH. reflexivity. Qed.
Lemma variable_ext s s' id index : same_responses s s' -> MakeVariableExpression s id index = MakeVariableExpression s' id index.
Proof. intros H. unfold MakeVariableExpression. rewrite (H id). reflexivity. Qed.
Lemma test_ext V s s' e : same_responses s s' -> CloseTest V s e = CloseTest V s' e.
Proof.
  intros Hs. induction e using test_ind'; cbn [CloseTest];
    unfold CloseEqual, CloseIneq, CloseSubset, CloseSubstring, CloseInside;
    try (destruct (ReadAttribute V _ _) as [i0|]; cbn [bind]; [|reflexivity]);
    try (rewrite (variable_ext s s' _ _ Hs)); try reflexivity.
  - rewrite (Hs i0). reflexivity.
  - rewrite (map_concat_ext _ _ _ H). reflexivity.
  - rewrite (map_concat_ext _ _ _ H). reflexivity.
  - rewrite (map_concat_ext _ _ _ H). reflexivity.
Qed.
Lemma condition_ext V s s' l : same_responses s s' -> CloseConditionVar V s l = CloseConditionVar V s' l.
Proof.
  intros Hs. unfold CloseConditionVar. rewrite (map_concat_ext (CloseTest V s) (CloseTest V s') l); [reflexivity|].
  apply Forall_forall. intros e _. apply test_ext, Hs.
Qed.

(** Placing parts *)
Fixpoint placed (l : list (bool * (option expr * list rule))) (continueMode : bool) (pt : point) (rs : list rule)
  : result (list rule) :=
  match l with
  | [] => Ok rs
  | (c, p) :: l' => '(rs, pt) <- AddRespCondition p c continueMode pt rs ;; placed l' c pt rs
  end.

Section Phase.
Variable uc : bool.
Lemma part_in_grows s0 s s' c p : grows s s' -> part_in uc s0 s c p -> part_in uc s0 s' c p.
Proof.
  intros G (e & sets & H1 & H2 & H3). exists e, sets. split; [exact H1|]. split; [|exact H3].
  clear - H2 G. induction H2 as [|v r l rs Hv _ IH]; constructor; [|exact IH]. destruct Hv as (d & K1 & K2). exists d.
  split; [eapply outcome_has_grows; eauto|exact K2].
Qed.
Lemma cond_ids_cons c l : cond_ids uc (c :: l) = cond_ids uc [c] ++ cond_ids uc l.
Proof. unfold cond_ids. cbn [flat_map]. rewrite app_nil_r. reflexivity. Qed.
Lemma conditions_phase s0 (I0 : inv s0) : forall l s dvs ids m pt rs s' rs', Ophase uc s0 s dvs ids -> flag_ok s0 s ->
  CloseRespConditions Vv uc s l m pt rs = Ok (s', rs') ->
  Ophase uc s0 s' dvs (ids ++ cond_ids uc l) /\ grows s s' /\ flag_ok s0 s' /\
  (exists ps, Forall2 (part_in uc s0 s') l ps /\ placed (combine (map MigItem.rc_continue l) ps) m pt rs = Ok rs') /\
  ((forall c, In c l -> MigItem.rc_feedback c = []) -> declareFeedback s' = declareFeedback s) /\
  ((exists c, In c l /\ MigItem.rc_feedback c <> []) -> declareFeedback s' = true).
Proof.
  induction l as [|c l IH]; intros s dvs ids m pt rs s' rs' P F H; cbn [CloseRespConditions] in H.
  { injection H as <- <-. unfold cond_ids. cbn [flat_map]. rewrite app_nil_r. split; [exact P|]. split; [apply grows_refl|].
    split; [exact F|]. split; [exists []; split; [constructor|reflexivity]|]. split; [reflexivity|]. intros (c & [] & _). }
  destruct (CloseRespCondition Vv uc s c) as [[s1 p]|] eqn:E; cbn [bind] in H; [|discriminate].
  destruct (AddRespCondition p _ m pt rs) as [[rs1 pt1]|] eqn:E1; cbn [bind] in H; [|discriminate].
  destruct (condition_phase _ _ _ _ _ _ _ _ P F E) as (P1 & G1 & H1 & F1 & Hf1 & Hf1').
  destruct (IH _ _ _ _ _ _ _ _ P1 F1 H) as (P2 & G2 & F2 & (ps & Hps & Hpl) & Hf2 & Hf2').
  rewrite cond_ids_cons, app_assoc. split; [exact P2|]. split; [eapply grows_trans; eauto|]. split; [exact F2|].
  split; [exists (p :: ps)|].
  - split.
    + constructor; [|exact Hps]. apply (part_in_grows _ s1); [exact G2|]. destruct H1 as (e & sets & K1 & K2). exists e, sets. split; [|exact K2].
      rewrite <- K1. symmetry. apply condition_ext. apply get_same_responses; [exact I0|apply P|apply P].
    + cbn [map combine placed]. rewrite E1. cbn [bind]. exact Hpl.
  - split.
    + intros Hc. rewrite Hf2, Hf1; [reflexivity|apply Hc; now left|intros x Hx; apply Hc; now right].
    + intros (x & [<-|Hx] & Hn); [apply G2, Hf1', Hn|apply Hf2'; exists x; auto].
Qed.

(** What a converted resprocessing leaves *)
Record Pphase (s0 s : MigItem.state) (p : resprocessing) : Prop := {
  p_phase : Ophase uc s0 s (rp_decvars p) (setvar_ids uc p);
  p_flag : flag_ok s0 s;
  p_parts : exists ps rs, Forall2 (part_in uc s0 s) (rp_conditions p) ps /\
    placed (combine (map MigItem.rc_continue (rp_conditions p)) ps) true (InRules 0) [] = Ok rs /\ rules s = Some rs;
  p_none : no_feedback p -> declareFeedback s = declareFeedback s0;
  p_some : (exists c, In c (rp_conditions p) /\ MigItem.rc_feedback c <> []) -> declareFeedback s = true;
  p_declared : forall n d, In (n, d) (declared s0) -> is_response d = true -> In (n, d) (declared s) }.
Lemma set_rules_inv s l : inv s -> inv (set_rules s l).
Proof. intros I. constructor; apply I. Qed.
Lemma set_rules_phase s0 s dvs ids l : Ophase uc s0 s dvs ids -> Ophase uc s0 (set_rules s l) dvs ids.
Proof. intros P. constructor; try apply P. apply set_rules_inv, P. Qed.
Lemma process_phase s0 p s : inv s0 -> CloseResProcessing Vv uc s0 p = Ok s -> Pphase s0 s p.
Proof.
  intros I H. unfold CloseResProcessing in H. destruct (CloseDecVars Vv uc _ _) as [s1|] eqn:E1; cbn [bind] in H; [|discriminate].
  destruct (CloseRespConditions Vv uc s1 _ _ _ _) as [[s2 rs]|] eqn:E2; cbn [bind] in H; [|discriminate]. injection H as <-.
  destruct (Reset_ok s0 I) as (R1 & R2 & R3 & R4 & R5 & R6 & R7).
  destruct (decvars_phase _ s0 _ _ [] _ (reset_phase uc s0 I) E1) as (P1 & G1 & F1 & _). cbn [app] in P1.
  assert (Fl : flag_ok s0 s1) by (intros K1 K2; congruence).
  destruct (conditions_phase _ I _ _ _ _ _ _ _ _ _ P1 Fl E2) as (P2 & G2 & F2 & (ps & Hps & Hpl) & Hn & Hs).
  constructor; cbn [declareFeedback set_rules rules]; auto.
  - apply set_rules_phase. exact P2.
  - exists ps, rs. split; [|split; [exact Hpl|reflexivity]].
    clear - Hps. induction Hps as [|c q l qs Hc _ IH]; constructor; [|exact IH].
    destruct Hc as (e & sets & K1 & K2 & K3). exists e, sets. split; [exact K1|]. split; [|exact K3]. exact K2.
  - intros K. rewrite Hn by exact K. congruence.
  - intros n d Hd Hr. cbn [declared]. apply G2, G1. apply R7. auto.
Qed.

(** ** The whole item *)
Lemma process_keeps s0 p s : inv s0 -> CloseResProcessing Vv uc s0 p = Ok s ->
  inv s /\ responses s = responses s0 /\ (forall id n, In (id, n) (responses s0) -> dget n (variables s) = dget n (variables s0)) /\
  (no_feedback p -> declareFeedback s = declareFeedback s0).
Proof. intros I H. destruct (process_phase _ _ _ I H) as [P _ _ K _ _]. split; [apply P|]. split; [apply P|]. split; [apply P|exact K]. Qed.
Lemma processes_keep : forall ps s0 s, inv s0 -> CloseResProcessings Vv uc s0 ps = Ok s ->
  inv s /\ responses s = responses s0 /\ (forall id n, In (id, n) (responses s0) -> dget n (variables s) = dget n (variables s0)) /\
  ((forall p, In p ps -> no_feedback p) -> declareFeedback s = declareFeedback s0).
Proof.
  induction ps as [|p ps IH]; intros s0 s I H; cbn [CloseResProcessings] in H.
  { injection H as <-. auto. }
  destruct (CloseResProcessing Vv uc s0 p) as [s1|] eqn:E; cbn [bind] in H; [|discriminate].
  destruct (process_keeps _ _ _ I E) as (I1 & R1 & V1 & F1). destruct (IH _ _ I1 H) as (I2 & R2 & V2 & F2).
  split; [exact I2|]. split; [congruence|]. split.
  - intros id n Hin. rewrite (V2 id n); [apply (V1 id n Hin)|]. rewrite R1. exact Hin.
  - intros Hn. rewrite F2, F1; [reflexivity|apply Hn; now left|intros x Hx; apply Hn; now right].
Qed.
Lemma processes_last : forall ps s0 p s, CloseResProcessings Vv uc s0 (ps ++ [p]) = Ok s ->
  exists s1, CloseResProcessings Vv uc s0 ps = Ok s1 /\ CloseResProcessing Vv uc s1 p = Ok s.
Proof.
  induction ps as [|q ps IH]; intros s0 p s H; cbn [app CloseResProcessings] in *.
  - exists s0. split; [reflexivity|]. destruct (CloseResProcessing Vv uc s0 p) as [s1|]; cbn [bind] in H; exact H.
  - destruct (CloseResProcessing Vv uc s0 q) as [s1|]; cbn [bind] in *; [|discriminate]. apply IH, H.
Qed.

(** What the conversion of an item leaves: [sr] after the responses, [s1] before the last
    resprocessing *)
Record converted (rs : list response) (ps : list resprocessing) (p : resprocessing) (s1 s : MigItem.state) : Prop := {
  v_inv1 : inv s1;
  v_keys : map fst (responses s1) = flat_map response_ids rs;
  v_responses : forall r, In r rs -> response_in s1 r;
  v_kept : ~ In FEEDBACK (flat_map response_ids rs) -> rkept s1;
  v_fresh : (forall q, In q ps -> no_feedback q) -> declareFeedback s1 = false;
  v_phase : Pphase s1 s p }.
Lemma converts sf rs ps p s' : ConvertItem Vv uc sf rs (ps ++ [p]) = Ok s' ->
  exists s1 s, converted rs ps p s1 s /\ s' = CloseBounds sf s.
Proof.
  intros H. unfold ConvertItem in H. destruct (CloseResponses Vv new_item rs) as [sr|] eqn:E1; cbn [bind] in H; [|discriminate].
  destruct (CloseResProcessings Vv uc sr (ps ++ [p])) as [s|] eqn:E2; cbn [bind] in H; [|discriminate]. injection H as <-.
  destruct (processes_last _ _ _ _ E2) as (s1 & E3 & E4).
  destruct (responses_step _ _ _ Rphase_new E1) as ((I1 & O1 & F1) & G1 & K1 & H1 & Ke1 & _).
  destruct (processes_keep _ _ _ I1 E3) as (I2 & R2 & V2 & F2).
  exists s1, s. split; [|reflexivity]. constructor.
  - exact I2.
  - rewrite R2, K1. reflexivity.
  - intros r Hr. specialize (H1 r Hr). destruct H1 as [H1 H2].
    assert (T : forall id mk, response_is sr id mk -> response_is s1 id mk).
    { intros id mk (n & K2 & K3). exists n. rewrite R2. split; [exact K2|]. rewrite (V2 id n); [exact K3|apply dget_in, K2]. }
    split; [apply T, H1|]. intros i Hi. apply T, H2, Hi.
  - intros Hf id n Hin. rewrite R2 in Hin. apply (Ke1 ltac:(intros ? ? []) Hf id n Hin).
  - intros Hq. rewrite F2 by exact Hq. exact F1.
  - apply process_phase; [exact I2|exact E4].
Qed.
Lemma response_now rs ps p s1 s id mk : converted rs ps p s1 s -> response_is s1 id mk -> response_is s id mk.
Proof.
  intros C (n & H1 & H2). destruct (v_phase _ _ _ _ _ C) as [P _ _ _ _ _]. exists n. rewrite (o_responses _ _ _ _ _ P). split; [exact H1|].
  rewrite (o_variables _ _ _ _ _ P id n); [exact H2|apply dget_in, H1].
Qed.
End Phase.

(** ** The names *)
Definition name_in (d : list (str * str)) (id : str) : str := match dget id d with Some n => n | None => [] end.
Lemma key_name id d : In id (map fst d) -> In (id, name_in d id) d.
Proof.
  intros H. unfold name_in. destruct (dget id d) as [n|] eqn:E; [apply dget_in, E|]. apply dget_none in E. contradiction.
Qed.
Lemma snd_inj (d : list (str * str)) : NoDup (map snd d) -> forall i j n, In (i, n) d -> In (j, n) d -> i = j.
Proof.
  induction d as [|[k m] d IH]; intros HN i j n; [intros []|]. cbn in HN. inversion HN as [|? ? Hm HN']; subst.
  assert (K : forall x, In (x, m) d -> False) by (intros x Hx; apply Hm, in_map_iff; exists (x, m); auto).
  intros [[= <- <-]|H1] [[= <-]|H2]; auto; try (now destruct (K _ H1)); try (now destruct (K _ H2)); try (subst; now destruct (K _ H1)). eauto.
Qed.
Lemma NoDup_parts {A} (x : A) l l' : NoDup (x :: l ++ l') -> NoDup l /\ NoDup l' /\ (forall y, In y l -> In y l' -> False) /\ ~ In x l /\ ~ In x l'.
Proof.
  intros H. inversion H as [|? ? Hx HN]; subst. rewrite in_app_iff in Hx. clear H. induction l as [|y l IH]; cbn in *.
  - split; [constructor|]. split; [exact HN|]. split; [intros ? []|]. tauto.
  - inversion HN as [|? ? Hy HN']; subst. destruct IH as (H1 & H2 & H3 & H4 & H5); [tauto|exact HN'|]. rewrite in_app_iff in Hy.
    split; [constructor; tauto|]. split; [exact H2|]. split; [|tauto]. intros z [<-|Hz] Hz'; [tauto|eauto].
Qed.
Lemma named_of uc rs ps p s1 s : converted uc rs ps p s1 s ->
  named uc rs p (name_in (responses s)) (name_in (outcomes s)) (declared s).
Proof.
  intros C.
  pose proof (v_phase _ _ _ _ _ _ C) as PP. pose proof (p_phase _ _ _ _ PP) as P. pose proof (o_inv _ _ _ _ _ P) as I.
  assert (Ho : forall i, In i (outcome_ids uc p) -> In i (map fst (outcomes s))).
  { intros i Hi. apply (o_keys _ _ _ _ _ P). exact Hi. }
  assert (Hr : map fst (responses s) = flat_map response_ids rs) by (rewrite (o_responses _ _ _ _ _ P); apply C).
  pose proof (i_names s I) as HN. apply NoDup_parts in HN as (N1 & N2 & N3 & N4 & N5).
  assert (TR : forall id mk, response_is s1 id mk -> (forall n, is_response (mk n) = true) ->
            let n := name_in (responses s) id in In (n, mk n) (declared s)).
  { intros id mk Hid Hmk. pose proof (response_now _ _ _ _ _ _ _ _ C Hid) as (n & K1 & K2). unfold name_in. rewrite K1.
    destruct (i_response s I id n (dget_in _ _ _ K1)) as (d & K3 & K4 & K5). rewrite K2 in K3. injection K3 as <-. apply K5, Hmk. }
  assert (TO : forall id t df v, outcome_is s id t df v -> let n := name_in (outcomes s) id in
            In (n, OutcomeDeclaration n (lit "single") t (default_of df) None None) (declared s)).
  { intros id t df v (n & K1 & K2). unfold name_in. rewrite K1.
    destruct (i_outcome s I id n (dget_in _ _ _ K1)) as (d & v' & K3 & K4 & K5 & K6). rewrite K2 in K3. injection K3 as <-. exact K6. }
  constructor.
  - intros i j Hi Hj E. rewrite <- Hr in Hi, Hj. apply key_name in Hi, Hj. rewrite E in Hi. exact (snd_inj _ N1 _ _ _ Hi Hj).
  - intros i j Hi Hj E. apply Ho in Hi, Hj. apply key_name in Hi, Hj. rewrite E in Hi. exact (snd_inj _ N2 _ _ _ Hi Hj).
  - intros i j Hi Hj E. rewrite <- Hr in Hi. apply Ho in Hj. apply key_name in Hi, Hj. rewrite E in Hi.
    eapply N3; [apply in_map with (f := snd) in Hi; exact Hi|apply in_map with (f := snd) in Hj; exact Hj].
  - split.
    + intros i Hi E. rewrite <- Hr in Hi. apply key_name in Hi. apply in_map with (f := snd) in Hi. cbn [snd] in Hi. apply N4. unfold FEEDBACK. rewrite <- E. exact Hi.
    + intros i Hi E. apply Ho in Hi. apply key_name in Hi. apply in_map with (f := snd) in Hi. cbn [snd] in Hi. apply N5. unfold FEEDBACK. rewrite <- E. exact Hi.
  - intros HK. apply NoDup_parts in HK as (_ & _ & D3 & D4 & D5).
    assert (Kr : rkept s1) by (apply (v_kept _ _ _ _ _ _ C); exact D4).
    assert (Ko : okept s).
    { apply (o_kept _ _ _ _ _ P Kr). intros i Hi. rewrite (v_keys _ _ _ _ _ _ C). rewrite nodup_In in D5. split.
      - intros ->. apply D5. exact Hi.
      - intros K. apply (D3 i K), nodup_In. exact Hi. }
    split; intros i Hi.
    + rewrite <- Hr in Hi. apply key_name in Hi. rewrite (o_responses _ _ _ _ _ P) in *. apply (Kr _ _ Hi).
    + apply Ho, key_name in Hi. apply (Ko _ _ Hi).
  - split; intros i Hi.
    + rewrite <- Hr in Hi. apply key_name in Hi. exact (i_origin s I _ _ (or_introl Hi)).
    + apply Ho, key_name in Hi. exact (i_origin s I _ _ (or_intror Hi)).
  - split; [apply I|]. intros n d Hd. apply (i_declared s I _ _ Hd).
  - intros r Hin Hs. destruct (v_responses _ _ _ _ _ _ C r Hin) as [K1 _]. rewrite Hs in K1. apply (TR _ _ K1). reflexivity.
  - intros r i Hin Hi. destruct (v_responses _ _ _ _ _ _ C r Hin) as [_ K1]. apply (TR _ _ (K1 i Hi)). reflexivity.
  - intros v Hv. apply (TO _ _ _ (Some (read_decvar uc v))). exact (proj1 (Forall_forall _ _) (o_decvars _ _ _ _ _ P) v Hv).
  - intros j Hj Hn. apply (TO j (lit "float") None None). apply (o_implicit _ _ _ _ _ P j Hj Hn).
Qed.
Theorem converted_names uc sf rs ps p s' : ConvertItem with_validate uc sf rs (ps ++ [p]) = Ok s' ->
  exists R O, named uc rs p R O (declared s').
Proof.
  intros H. destruct (converts uc sf rs ps p s' H) as (s1 & s & C & ->).
  exists (name_in (responses s)), (name_in (outcomes s)). exact (named_of _ _ _ _ _ _ C).
Qed.
