(** Lemmas: attempts, independence of earlier outcomes, assignments, submitted responses *)
From Coq Require Import QArith Qcanon.
From Verif Require Import Py Dec XmlUtils Xsd XsdProofs XsdProofs2 Imscp ImscpProofs QtiValue QtiExpr QtiSpec QtiProofs QtiProofs2
  QtiProofs3 QtiProofs4 QtiProc QtiProcSpec QtiProcProofs QtiProcProofs2.
Open Scope Z_scope.
Open Scope list_scope.

Section P.
Context {X : Ext}.

(** ** Attempts *)
Section Item.
Variable i : item.
Hypothesis Hd : distinct_names i.
Hypothesis Hs : well_sorted i.

Definition attempts_of (st : state) : option value := assoc numAttempts (s_map st).
Lemma touch_attempts (ok : role -> Prop) st st' : s_item st = i -> touch ok st st' -> ~ ok Attempts ->
  attempts_of st' = attempts_of st.
Proof. intros Hi [_ T] Hk. apply (T numAttempts Attempts); [rewrite Hi; apply attempts_in|exact Hk]. Qed.

Lemma each_responses_attempts st l : s_item st = i -> incl l (i_responses i) ->
  attempts_of (fst (each response_default l st)) = attempts_of st /\ s_item (fst (each response_default l st)) = i.
Proof.
  intros Hi Hl. assert (S : step i (fun r => exists d, r = Response d) st (fst (each response_default l st))).
  { apply each_step. intros d H st'. eapply step_weaken; [|apply response_default_step; [exact Hd|apply Hl, H]]. intros r ->. eauto. }
  destruct (S Hi) as [T _]. split; [|destruct T; congruence]. eapply touch_attempts; [exact Hi|exact T|].
  intros [d K]. discriminate.
Qed.

Lemma BeginAttempt_count st st' n : s_item st = i -> attempts_of st = Some (integer n) -> BeginAttempt st = (st', None) ->
  attempts_of st' = Some (integer (n + 1)).
Proof.
  intros Hi Hn. unfold BeginAttempt, get_var. unfold attempts_of in Hn. rewrite Hn. cbn [lift]. unfold integer at 1.
  destruct (set_value _ _) as [v1 [e|]] eqn:Ev; cbn [andthen]; [discriminate|].
  assert (V1 : v1 = integer (n + 1)) by (clear - Ev; unfold set_value, parse_single in Ev; destruct (in_range (n + 1)); [injection Ev as <-; reflexivity|discriminate]). subst v1.
  set (st1 := put st numAttempts _).
  assert (H1 : attempts_of st1 = Some (integer (n + 1))) by (unfold st1, attempts_of; cbn [put s_map]; apply assoc_sset_same).
  assert (Hi1 : s_item st1 = i) by exact Hi.
  destruct (n + 1 =? 1); [|intros [= <-]; exact H1].
  rewrite Hi1. destruct (each_responses_attempts st1 (i_responses i) Hi1 (incl_refl _)) as [H2 Hi2].
  destruct (each response_default (i_responses i) st1) as [st2 [e|]]; cbn [andthen fst] in *; [discriminate|].
  unfold lift. destruct (new_single (Some BIdentifier) (Some (RText (lit "unknown")))) as [u|] eqn:E; [|discriminate].
  intros [= <-]. unfold attempts_of. cbn [put s_map]. rewrite assoc_sset_other; [exact (eq_trans H2 H1)|].
  intros K. discriminate K.
Qed.
Lemma poke_other n a st st' m : poke n a st = (st', None) -> m <> n -> assoc m (s_map st') = assoc m (s_map st).
Proof.
  unfold poke, lift. destruct (get_var st n) as [v|]; [|discriminate]. destruct v; try discriminate.
  intros [= <-] Hm. apply assoc_sset_other, Hm.
Qed.
Lemma poke_typed n a st st' bt : poke n a st = (st', None) -> (exists old, assoc n (s_map st) = Some old /\ base old = bt) ->
  assoc n (s_map st') = Some (VSingle bt (Some a)).
Proof.
  unfold poke, lift, get_var. intros H (old & Ho & Hb). rewrite Ho in H. destruct old; try discriminate.
  injection H as <-. cbn in Hb. subst. apply assoc_sset_same.
Qed.
Lemma BeginSession_count st st' : s_item st = i -> well_typed st -> BeginSession st = (st', None) ->
  attempts_of st' = Some (integer 0).
Proof.
  intros Hi Hw. unfold BeginSession.
  pose proof (poke_step i Hd (fun _ => True) completionStatus Status (AIdent (lit "not_attempted")) st (status_in i) I Hi) as [[T1 _] W1].
  destruct (poke completionStatus _ st) as [st1 [e|]]; cbn [andthen fst] in *; [discriminate|].
  pose proof (SetOutcomeDefaults_step i Hd st1 (eq_trans T1 Hi)) as [[T2 _] W2].
  destruct (SetOutcomeDefaults st1) as [st2 [e|]]; cbn [andthen fst] in *; [discriminate|].
  destruct (poke numAttempts (AInt 0) st2) as [st3 [e|]] eqn:E3; cbn [andthen]; [discriminate|]. intros H.
  unfold attempts_of. rewrite (poke_other _ _ _ _ _ H) by (intros K; discriminate K).
  eapply poke_typed; [exact E3|]. specialize (W2 (W1 Hw) numAttempts Attempts).
  rewrite T2, T1, Hi in W2. specialize (W2 (attempts_in i)).
  destruct (assoc numAttempts (s_map st2)) as [old|]; [|discriminate]. exists old. split; [reflexivity|].
  cbn in W2. congruence.
Qed.

Lemma event_attempts p ev st : s_item st = i -> ~ counted ev -> no_direct ev ->
  attempts_of (fst (apply_event p ev st)) = attempts_of st.
Proof.
  intros Hi Hc Hn. destruct ev.
  - destruct (event_step i Hd Hs p EvSelectClone st Hi) as [T _]. eapply touch_attempts; [exact Hi|exact T|].
    intros (d & [K|[K|K]]); discriminate.
  - destruct Hc. left. reflexivity.
  - destruct Hc. right. reflexivity.
  - destruct (event_step i Hd Hs p (EvSave ps) st Hi) as [T _]. eapply touch_attempts; [exact Hi|exact T|].
    intros (d & K); discriminate.
  - destruct (event_step i Hd Hs p (EvSubmit ps) st Hi) as [T _]. eapply touch_attempts; [exact Hi|exact T|].
    intros [(d & [K|K])|[(d & K)|K]]; discriminate.
  - cbn [apply_event]. cbn [no_direct] in Hn. unfold set_item, lift. destruct (get_var st n); [|reflexivity].
    destruct (match card v with None => _ | _ => _ end); [reflexivity|].
    destruct (match base v with None => _ | _ => _ end); [reflexivity|]. destruct (set_value _ _). cbn [fst].
    unfold attempts_of. cbn [put s_map]. apply assoc_sset_other. congruence.
  - destruct (event_step i Hd Hs p (EvTemplateDefault n v) st Hi) as [T _]. eapply touch_attempts; [exact Hi|exact T|].
    intros (d & [K|[K|K]]); discriminate.
Qed.
Lemma history_attempts p evs : forall st k, s_item st = i -> well_typed st -> attempts_of st = Some (integer k) ->
  returning p evs st -> Forall no_direct evs -> attempts_of (history p evs st) = Some (integer (attempts k evs)).
Proof.
  induction evs as [|ev evs IH]; intros st k Hi Hw Hk Hr Hn; cbn [history attempts]; [exact Hk|].
  destruct Hr as [Hr1 Hr2]. apply Forall_cons_iff in Hn. destruct Hn as [Hn1 Hn2].
  destruct (event_step i Hd Hs p ev st Hi) as [[T _] W].
  assert (G : forall k', attempts_of (fst (apply_event p ev st)) = Some (integer k') ->
    attempts_of (history p evs (fst (apply_event p ev st))) = Some (integer (attempts k' evs))).
  { intros k' H. apply IH; auto. congruence. }
  assert (E : ~ counted ev -> attempts_of (fst (apply_event p ev st)) = Some (integer k)).
  { intros Hc. rewrite <- Hk. apply event_attempts; auto. }
  destruct ev; try (apply G, E; intros [K|K]; discriminate).
  - apply G. cbn [apply_event] in *. specialize (Hr1 (or_introl eq_refl)).
    destruct (BeginSession st) as [st' o] eqn:Ee. cbn [snd fst] in *. subst o. eapply BeginSession_count; eauto.
  - apply G. cbn [apply_event] in *. specialize (Hr1 (or_intror eq_refl)).
    destruct (BeginAttempt st) as [st' o] eqn:Ee. cbn [snd fst] in *. subst o. eapply BeginAttempt_count; eauto.
Qed.

(** ** Independence of earlier outcomes *)
Definition agree (N : str -> Prop) (st1 st2 : state) : Prop :=
  s_item st1 = s_item st2 /\
  (forall n, N n -> assoc n (s_map st1) = assoc n (s_map st2)) /\
  (forall n, assoc n (s_map st1) = None <-> assoc n (s_map st2) = None).
Definition simulates (N : str -> Prop) (f : state -> eff) : Prop :=
  forall st1 st2, agree N st1 st2 -> agree N (fst (f st1)) (fst (f st2)) /\ snd (f st1) = snd (f st2).
Lemma agree_put N st1 st2 n v : agree N st1 st2 -> agree N (put st1 n v) (put st2 n v).
Proof.
  intros (H1 & H2 & H3). split; [exact H1|]. cbn [put s_map]. split; intros m; [intros Hm|]; rewrite !assoc_sset;
    destruct (str_eqb m n); auto; split; discriminate.
Qed.
Lemma agree_remove N st1 st2 n : agree N st1 st2 -> agree N (remove st1 n) (remove st2 n).
Proof.
  intros (H1 & H2 & H3). split; [exact H1|]. cbn [remove s_map]. split; intros m; [intros Hm|]; rewrite !assoc_sdel;
    destruct (str_eqb m n); auto; tauto.
Qed.
Lemma agree_get N st1 st2 n : agree N st1 st2 -> N n -> get_var st1 n = get_var st2 n.
Proof. intros (_ & H & _) Hn. unfold get_var. rewrite (H n Hn). reflexivity. Qed.
Lemma agree_decl N st1 st2 n : agree N st1 st2 -> GetDeclaration st1 n = GetDeclaration st2 n.
Proof.
  intros (Hi & _ & H). unfold GetDeclaration. rewrite Hi. specialize (H n).
  destruct (assoc n (s_map st1)), (assoc n (s_map st2)); try reflexivity; destruct H as [H1 H2];
    [discriminate (H2 eq_refl)|discriminate (H1 eq_refl)].
Qed.
Lemma sim_const N o : simulates N (fun st => (st, o)).
Proof. intros st1 st2 H. auto. Qed.
Lemma sim_andthen N f g : simulates N f -> simulates N g -> simulates N (fun st => andthen (f st) g).
Proof.
  intros Hf Hg st1 st2 H. destruct (Hf _ _ H) as [H1 H2]. destruct (f st1) as [s1 o1], (f st2) as [s2 o2]. cbn [fst snd] in *.
  subst o2. destruct o1; cbn [andthen fst snd]; auto.
Qed.
Lemma sim_each {A} N (f : A -> state -> eff) l : (forall x, In x l -> simulates N (f x)) -> simulates N (each f l).
Proof.
  induction l as [|x l IH]; intros H; cbn [each]; [apply sim_const|].
  apply (sim_andthen N (f x)); [apply H; left; reflexivity|]. apply IH. intros y Hy. apply H. right. exact Hy.
Qed.
Lemma sim_store (N : str -> Prop) n p : N n -> simulates N (store n p).
Proof.
  intros Hn st1 st2 H. unfold store. rewrite (agree_get N st1 st2 n H Hn). unfold lift. destruct (get_var st2 n); [|auto].
  destruct (set_value _ p). cbn [fst snd]. split; [apply agree_put, H|reflexivity].
Qed.
Lemma sim_save_parameter (N : str -> Prop) prefix p : (forall d, In d (i_responses i) -> N (SAVED (d_id d))) ->
  forall st1 st2, s_item st1 = i -> agree N st1 st2 ->
  agree N (fst (save_parameter prefix p st1)) (fst (save_parameter prefix p st2)) /\
  snd (save_parameter prefix p st1) = snd (save_parameter prefix p st2).
Proof.
  intros HN st1 st2 Hi H. destruct p as [p x]. unfold save_parameter.
  destruct (negb (starts_with_prefix prefix p)); [auto|].
  set (parts := split_on 46 (skipn (length prefix) p)). set (name := hd [] parts).
  rewrite (agree_decl N st1 st2 name H). destruct (GetDeclaration st2 name) as [od|] eqn:E; cbn [lift]; [|auto].
  destruct od as [d|]; [|auto]. destruct (is_response (Some d)) eqn:Er; cbn [negb]; [|auto].
  assert (Hn : N (SAVED name)).
  { unfold GetDeclaration in E. destruct (assoc name (s_map st2)); [|discriminate]. injection E as E.
    replace (s_item st2) with i in E by (destruct H; congruence).
    destruct (declared _ _ _ E) as [<- Hin]. apply HN. eapply is_response_in; eassumption. }
  set (F := fun st => match assoc (SAVED name) (s_map st) with
     | Some _ => (st, None)
     | None => lift st (new_value (d_card d) (d_base d)) (fun v => (put st (SAVED name) v, None)) end).
  assert (HF : simulates N F).
  { intros s1 s2 Ha. unfold F. destruct Ha as (A1 & A2 & A3). rewrite (A2 _ Hn).
    destruct (assoc (SAVED name) (s_map s2)); [split; [split|]; auto|].
    unfold lift. destruct (new_value _ _); cbn [fst snd]; (split; [|reflexivity]); [apply agree_put|]; (split; auto). }
  refine (sim_andthen N F _ HF _ st1 st2 H).
  destruct (d_card d) as [[]|]; try apply sim_const.
  - apply sim_store, Hn.
  - destruct (Nat.eqb _ 2); apply sim_const.
  - destruct x; [apply sim_store, Hn|apply sim_const].
Qed.
Lemma sim_commit (N : str -> Prop) d : N (SAVED (d_id d)) -> N (d_id d) -> simulates N (commit_saved d).
Proof.
  intros H1 H2 st1 st2 H. unfold commit_saved. rewrite (proj1 (proj2 H) _ H1).
  destruct (assoc (SAVED (d_id d)) (s_map st2)) as [w|]; [|auto].
  refine (sim_andthen N (store (d_id d) (payload_of w)) _ (sim_store _ _ _ H2) _ st1 st2 H).
  intros s1 s2 Ha. cbn [fst snd]. split; [apply agree_remove, Ha|reflexivity].
Qed.
Lemma SaveParameters_sim (N : str -> Prop) prefix ps : (forall d, In d (i_responses i) -> N (SAVED (d_id d))) ->
  forall st1 st2, s_item st1 = i -> agree N st1 st2 ->
  agree N (fst (SaveParameters prefix ps st1)) (fst (SaveParameters prefix ps st2)) /\
  snd (SaveParameters prefix ps st1) = snd (SaveParameters prefix ps st2).
Proof.
  intros HN. unfold SaveParameters. induction ps as [|p ps IH]; intros st1 st2 Hi H; cbn [each]; [auto|].
  destruct (sim_save_parameter N prefix p HN st1 st2 Hi H) as [H1 H2].
  destruct (save_parameter_step i Hd Hs prefix p st1 Hi) as [[T _] _].
  destruct (save_parameter prefix p st1) as [s1 o1], (save_parameter prefix p st2) as [s2 o2]. cbn [fst snd] in *. subst o2.
  destruct o1; cbn [andthen fst snd]; [auto|]. apply IH; [congruence|exact H1].
Qed.

Definition ids (l : list declaration) : list str := map d_id l.
Lemma defaults_agree l : incl l (i_outcomes i) -> forall st1 st2, agree (fun n => ~ In n (ids l)) st1 st2 ->
  snd (each outcome_default l st1) = snd (each outcome_default l st2) /\
  (snd (each outcome_default l st1) = None ->
   agree (fun _ => True) (fst (each outcome_default l st1)) (fst (each outcome_default l st2))).
Proof.
  induction l as [|d l IH]; intros Hl st1 st2 H; cbn [each].
  - split; [reflexivity|]. intros _. destruct H as (A1 & A2 & A3). cbn. repeat split; auto; apply A3.
  - assert (Hin : In d (i_outcomes i)) by (apply Hl; left; reflexivity).
    assert (Hdef : ~ In (DEFAULT (d_id d)) (ids (d :: l))).
    { intros K. unfold ids in K. apply in_map_iff in K. destruct K as (d' & E & K). apply Hl in K.
      assert (R : Outcome d' = Default d).
      { apply (role_unique i Hd (DEFAULT (d_id d))).
        - rewrite <- E. apply (in_outcome_all i d' K). left. reflexivity.
        - apply (in_outcome_all i d Hin). right. left. reflexivity. }
      discriminate. }
    unfold outcome_default. rewrite (agree_get _ st1 st2 _ H Hdef).
    unfold lift. destruct (get_var st2 (DEFAULT (d_id d))) as [dv|]; [|cbn; split; [reflexivity|discriminate]].
    destruct (CopyValue dv) as [v|]; [|cbn; split; [reflexivity|discriminate]]. cbn [andthen].
    apply IH; [intros x Hx; apply Hl; right; exact Hx|].
    destruct H as (A1 & A2 & A3). split; [exact A1|]. cbn [put s_map]. split; intros m.
    + intros Hm. rewrite !assoc_sset. destruct (str_eqb m (d_id d)) eqn:E; [reflexivity|].
      apply A2. cbn. intros [K|K]; [|contradiction]. rewrite <- K, str_eqb_refl in E. discriminate.
    + rewrite !assoc_sset. destruct (str_eqb m (d_id d)); [split; discriminate|apply A3].
Qed.

Notation all := (fun _ : str => True).
Lemma agree_all_eval st1 st2 e : agree all st1 st2 -> eval st1 e = eval st2 e.
Proof. intros (H1 & H2 & _). apply eval_ext; auto. Qed.
Lemma agree_all_condition st1 st2 c : agree all st1 st2 -> condition st1 c = condition st2 c.
Proof. intros H. unfold condition. destruct c; [|reflexivity]. rewrite (agree_all_eval st1 st2 _ H). reflexivity. Qed.
Lemma sim_set_item n w : simulates all (set_item n w).
Proof.
  intros st1 st2 H. unfold set_item. rewrite (agree_get all st1 st2 n H I). unfold lift. destruct (get_var st2 n); [|auto].
  destruct (match card w with None => _ | _ => _ end); [auto|].
  destruct (match base w with None => _ | _ => _ end); [auto|]. destruct (set_value _ _). cbn [fst snd].
  split; [apply agree_put, H|reflexivity].
Qed.
Lemma sim_set_outcome a : simulates all (run_set_outcome a).
Proof.
  intros st1 st2 H. unfold run_set_outcome. destruct (so_expr a) as [e|]; [|auto].
  rewrite (agree_all_eval _ _ e H). destruct (eval st2 e); cbn [lift]; [|auto].
  unfold IsOutcome. rewrite (agree_decl all st1 st2 _ H). unfold lift.
  destruct (GetDeclaration st2 (so_id a)); cbn [bind]; [|auto].
  match goal with |- context [if ?b then _ else _] => destruct b end; [apply sim_set_item, H|auto].
Qed.
Lemma sim_response_processing rp : simulates all (ResponseProcessing rp).
Proof.
  intros st1 st2 H. unfold ResponseProcessing, processing.
  destruct (run_rules_sim setOutcome run_set_outcome (agree all)
    (fun s1 s2 c K => agree_all_condition s1 s2 c K) (fun a s1 s2 K => sim_set_outcome a s1 s2 K) rp st1 st2 H) as [H1 H2].
  destruct (run_rules _ _ rp st1) as [s1 f1], (run_rules _ _ rp st2) as [s2 f2]. cbn [fst snd] in *. subst f2.
  destruct f1; auto.
Qed.

Lemma submit_agree prefix rp ps st1 st2 : i_adaptive i = false -> s_item st1 = i ->
  agree (fun n => ~ In n (ids (i_outcomes i))) st1 st2 ->
  snd (SubmitSession prefix rp ps st1) = snd (SubmitSession prefix rp ps st2) /\
  (snd (SubmitSession prefix rp ps st1) = None ->
   agree all (fst (SubmitSession prefix rp ps st1)) (fst (SubmitSession prefix rp ps st2))).
Proof.
  intros Ha Hi H. set (N := fun n => ~ In n (ids (i_outcomes i))) in *.
  assert (HN : forall d r, In d (i_responses i) -> forall n, In (n, r) (variables i) -> (forall d', r <> Outcome d') -> N n).
  { intros d r Hdd n Hn Hr K. unfold ids in K. apply in_map_iff in K. destruct K as (d' & <- & K).
    apply (Hr d'). apply (role_unique i Hd (d_id d')); [exact Hn|]. apply (in_outcome_all i d' K). left. reflexivity. }
  assert (N1 : forall d, In d (i_responses i) -> N (SAVED (d_id d))).
  { intros d Hdd. apply (HN d (Saved d) Hdd); [apply (in_response_all i d Hdd); cbn; auto|discriminate]. }
  assert (N2 : forall d, In d (i_responses i) -> N (d_id d)).
  { intros d Hdd. apply (HN d (Response d) Hdd); [apply (in_response_all i d Hdd); cbn; auto|discriminate]. }
  unfold SubmitSession.
  destruct (SaveParameters_sim N prefix ps N1 st1 st2 Hi H) as [H1 E1].
  destruct (SaveParameters_step i Hd Hs prefix ps st1 Hi) as [[T1 _] _].
  destruct (SaveParameters prefix ps st1) as [s1 o1], (SaveParameters prefix ps st2) as [s2 o2]. cbn [fst snd] in *. subst o2.
  destruct o1; cbn [andthen]; [cbn; split; [reflexivity|discriminate]|].
  replace (s_item s2) with (s_item s1) by apply H1.
  assert (Hi1 : s_item s1 = i) by congruence. rewrite Hi1.
  destruct (sim_each N commit_saved (i_responses i) (fun d K => sim_commit N d (N1 d K) (N2 d K)) s1 s2 H1) as [H2 E2].
  assert (T2 : s_item (fst (each commit_saved (i_responses i) s1)) = i).
  { assert (S : step i (fun _ => True) s1 (fst (each commit_saved (i_responses i) s1))).
    { apply each_step. intros d K st'. eapply step_weaken; [|apply commit_saved_step; [exact Hd|exact Hs|exact K]]. auto. }
    destruct (S Hi1) as [[T _] _]. congruence. }
  destruct (each commit_saved (i_responses i) s1) as [t1 o1], (each commit_saved (i_responses i) s2) as [t2 o2].
  cbn [fst snd] in *. subst o2. destruct o1; cbn [andthen]; [cbn; split; [reflexivity|discriminate]|].
  unfold EndAttempt. replace (s_item t2) with (s_item t1) by apply H2. rewrite T2, Ha.
  unfold SetOutcomeDefaults. replace (s_item t2) with (s_item t1) by apply H2. rewrite T2.
  destruct (defaults_agree (i_outcomes i) (incl_refl _) t1 t2 H2) as [E3 H3].
  destruct (each outcome_default (i_outcomes i) t1) as [u1 o1], (each outcome_default (i_outcomes i) t2) as [u2 o2].
  cbn [fst snd] in *. subst o2. destruct o1; cbn [andthen]; [cbn; split; [reflexivity|discriminate]|].
  destruct (sim_response_processing rp u1 u2 (H3 eq_refl)) as [H4 E4]. auto.
Qed.
End Item.

(** ** Assignments *)
Lemma somes_all b l : Forall (fun x => exists a, x = Some a /\ wf_atom b a) l -> map Some (somes l) = l.
Proof. induction 1 as [|x l (a & -> & Ha) Hl IH]; cbn; [reflexivity|]. rewrite IH. reflexivity. Qed.
Lemma wf_somes b l : Forall (fun x => exists a, x = Some a /\ wf_atom b a) l -> Forall (wf_atom b) (somes l).
Proof. induction 1 as [|x l (a & -> & Ha) Hl IH]; cbn; constructor; assumption. Qed.
Lemma bag_keys b m : wf_bag b m -> forall a, In a (somes (map fst m)) <-> In (Some a) (map fst m).
Proof.
  intros _ a. induction (map fst m) as [|[x|] l IH]; cbn; [tauto| |].
  - rewrite IH. split; intros [H|H]; auto; left; congruence.
  - rewrite IH. split; [auto|intros [K|K]; [discriminate|exact K]].
Qed.
Lemma bag_members b bt m a : wf_bag b m -> In a (members (VMultiple bt (Some m))) <-> In (Some a) (map fst m).
Proof.
  intros H. pose proof (occurs_bag b bt m a H) as E. unfold occurs in E.
  assert (G : In a (members (VMultiple bt (Some m))) <-> 0 < acount (Some a) m).
  { rewrite (count_occ_In atom_eq_dec). lia. }
  rewrite G. split.
  - intros K. destruct (in_dec (fun x y => match oatom_eqb x y as t return oatom_eqb x y = t -> {x = y} + {x <> y} with
        true => fun e => left (proj1 (oatom_eqb_eq x y) e) | false => fun e => right (proj1 (oatom_eqb_neq x y) e) end eq_refl) (Some a) (map fst m)) as [I|I]; [exact I|].
    rewrite (acount_notin _ _ I) in K. lia.
  - intros K. apply in_map_iff in K. destruct K as ((k & n) & Ek & K). cbn in Ek. subst k. destruct H as [Hn Hf].
    unfold acount. rewrite (aget_NoDup _ _ _ Hn K). rewrite Forall_forall in Hf. apply Hf in K. apply K.
Qed.

Lemma set_single b o r : set_value (VSingle (Some b) o) (PRaw r) =
  match parse_single b r with Ok oa => (VSingle (Some b) oa, None) | Err e => (VSingle (Some b) o, Some e) end.
Proof. destruct b; reflexivity. Qed.
Lemma set_value_assigned old w new : wf_value w -> (card w = None \/ card w = card old) -> (base w = None \/ base w = base old) ->
  set_value old (payload_of w) = (new, None) ->
  (card w = Some CSingle -> non_null w = true -> new = w) /\
  (card w = Some COrdered -> non_null w = true -> new = w) /\
  (card w = Some CRecord -> non_null w = true -> new = w) /\
  (forall a, In a (members new) <-> In a (members w)) /\
  (non_null w = false -> non_null new = false).
Proof.
  intros Hw Hc Hb H.
  assert (N : payload_of w = PNone -> members w = [] -> card w = Some CSingle \/ card w = Some COrdered \/ card w = Some CRecord \/ True ->
     non_null w = false -> forall P Q R : Prop,
     ((card w = Some CSingle -> non_null w = true -> P) /\ (card w = Some COrdered -> non_null w = true -> Q) /\
      (card w = Some CRecord -> non_null w = true -> R) /\
      (forall a, In a (members new) <-> In a (members w)) /\ (non_null w = false -> non_null new = false))).
  { intros Hp Hm _ Hn P Q R. rewrite Hp in H. rewrite Hn, Hm.
    assert (G : members new = [] /\ non_null new = false).
    { destruct old as [| |[[]|] ?| | |]; unfold set_value in H; inversion H; subst; auto. }
    destruct G as [-> ->]. repeat split; auto; try discriminate. }
  destruct w as [|bt|[b|] [a|]|[b|] [l|]|[b|] [m|]|[l|]]; cbn [wf_value] in Hw; try contradiction; try (apply N; auto; fail).
  - (* single *) cbn in Hc, Hb. destruct Hc as [Hc|Hc]; [discriminate|]. destruct Hb as [Hb|Hb]; [discriminate|].
    destruct old as [| |bt o| | |]; try discriminate. cbn in Hb. subst bt. cbn [payload_of] in H.
    rewrite set_single, (parse_raw b a Hw) in H. injection H as <-. repeat split; auto; try discriminate; tauto.
  - (* ordered *) destruct Hw as [Hl Hf]. cbn in Hc, Hb. destruct Hc as [Hc|Hc]; [discriminate|]. destruct Hb as [Hb|Hb]; [discriminate|].
    destruct old as [| | |bt o| |]; try discriminate. cbn in Hb. subst bt. cbn [payload_of set_value] in H.
    rewrite (set_ordered_raws b l (wf_somes b l Hf)) in H. pose proof (somes_all b l Hf) as Es.
    assert (E : new = VOrdered (Some b) (Some l)).
    { injection H as <-. destruct (somes l) as [|x xs] eqn:E; [exfalso; apply Hl; rewrite <- Es; reflexivity|].
      cbn [map] in Es |- *. rewrite <- Es. reflexivity. }
    rewrite E. repeat split; auto; discriminate.
  - (* multiple *) pose proof (value_bag b m Hw) as Hbag. destruct Hw as (Hm & Hn & Hf). cbn in Hc, Hb.
    destruct Hc as [Hc|Hc]; [discriminate|]. destruct Hb as [Hb|Hb]; [discriminate|].
    destruct old as [| | | |bt o|]; try discriminate. cbn in Hb. subst bt. cbn [payload_of set_value] in H.
    rewrite <- (map_map fst (option_map raw_of)) in H.
    assert (Hk : Forall (wf_atom b) (somes (map fst m))).
    { apply wf_somes. apply Forall_map. eapply Forall_impl; [|exact Hf]. intros p [_ K]. exact K. }
    rewrite (set_multiple_raws b (map fst m) Hk) in H. injection H as <-.
    split; [discriminate|]. split; [discriminate|]. split; [discriminate|]. split; [|discriminate].
    intros a. rewrite (bag_members b (Some b) m a Hbag). rewrite <- (bag_keys b m Hbag a).
    destruct (somes (map fst m)) as [|x xs] eqn:E; [cbn; tauto|]. rewrite <- E in Hk |- *.
    rewrite (count_occ_In atom_eq_dec). change (count_occ atom_eq_dec (members ?v) a) with (occurs a v).
    rewrite (bag_occurs b (Some b) _ a Hk). rewrite (count_occ_In atom_eq_dec). reflexivity.
  - (* record *) destruct Hw as (Hl & _). cbn in Hc. destruct Hc as [Hc|Hc]; [discriminate|].
    destruct old; try discriminate. cbn [payload_of set_value] in H. destruct l as [|x l]; [congruence|].
    injection H as <-. repeat split; auto; try discriminate; tauto.
Qed.
Lemma opt_card_eqb c c' : opt_eqb cardinality_eqb c c' = true -> c = c'.
Proof. destruct c as [[]|], c' as [[]|]; cbn; congruence. Qed.
Lemma opt_base_eqb c c' : opt_eqb baseType_eqb c c' = true -> c = c'.
Proof. destruct c as [[]|], c' as [[]|]; cbn; congruence. Qed.
Lemma set_item_assigned n w st st' : wf_value w -> set_item n w st = (st', None) -> assigned st n w st'.
Proof.
  intros Hw. unfold set_item, lift. destruct (get_var st n) as [old|] eqn:Eg; [|discriminate].
  destruct (match card w with None => _ | _ => _ end) eqn:Ec; [discriminate|].
  destruct (match base w with None => _ | _ => _ end) eqn:Eb; [discriminate|].
  pose proof (set_value_type old (payload_of w)) as [T1 T2].
  destruct (set_value old (payload_of w)) as [new oe] eqn:Es. cbn [fst] in T1, T2. intros [= <- ->].
  assert (Hc : card w = None \/ card w = card old).
  { destruct (card w) as [c|]; [|auto]. apply negb_false_iff in Ec. right. apply opt_card_eqb, Ec. }
  assert (Hb : base w = None \/ base w = base old).
  { destruct (base w) as [c|]; [|auto]. apply negb_false_iff in Eb. right. apply opt_base_eqb, Eb. }
  destruct (set_value_assigned old w new Hw Hc Hb Es) as (A1 & A2 & A3 & A4 & A5).
  exists old, new. split; [apply get_var_assoc, Eg|]. split; [cbn [put s_map]; apply assoc_sset_same|].
  repeat split; auto; try apply A4. intros m Hm. unfold same_value. cbn [put s_map]. apply assoc_sset_other, Hm.
Qed.
Lemma set_outcome_assigned a st st' : wf_state st -> (forall e, so_expr a = Some e -> literals_ok e) ->
  run_set_outcome a st = (st', None) ->
  exists e v, so_expr a = Some e /\ eval st e = Ok v /\ assigned st (so_id a) v st'.
Proof.
  intros Hw Hl. unfold run_set_outcome, lift. destruct (so_expr a) as [e|]; [|discriminate].
  destruct (eval st e) as [v|] eqn:E; [|discriminate]. destruct (IsOutcome st (so_id a)) as [[]|]; try discriminate.
  intros H. exists e, v. split; [reflexivity|]. split; [exact E|]. apply set_item_assigned; [|exact H].
  eapply eval_wf; eauto.
Qed.
End P.
