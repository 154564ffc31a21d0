(** Proofs about the variables of a converted item: the names they get. *)
From Coq Require Import Lia QArith Qcanon.
From Verif Require Import Py Iso Dec XmlUtils XmlChars Xsd Shapes QtiValue QtiExpr QtiSpec QtiProc QtiProcSpec
  V1Mig V1MigSpec V1MigProofs2 MigWrite MigItem MigItemSpec MigItemProofs.
Open Scope Z_scope.
Open Scope list_scope.

Definition Vv := with_validate.
Lemma read_response v : ReadIdentifier Vv v RESPONSE_PREFIX = Ok (response_id v).
Proof. reflexivity. Qed.
Lemma read_feedback v : ReadIdentifier Vv v FEEDBACK_PREFIX = Ok (feedback_id v).
Proof. reflexivity. Qed.
Lemma read_outcome uc v : MigItem.outcome_id Vv uc v = Ok (outcome_id uc v).
Proof. reflexivity. Qed.
Lemma read_varname uc v : varname Vv uc v = Ok (outcome_named uc v).
Proof. destruct v; reflexivity. Qed.
Lemma set_default_of d : set_default d = default_of d.
Proof. destruct d as [[|]|]; reflexivity. Qed.

(** ** How the store grows *)
Record grows (s s' : MigItem.state) : Prop := {
  g_responses : forall id n, dget id (responses s) = Some n -> dget id (responses s') = Some n;
  g_outcomes : forall id n, dget id (outcomes s) = Some n -> dget id (outcomes s') = Some n;
  g_variables : forall n e, dget n (variables s) = Some e -> dget n (variables s') = Some e;
  g_declared : forall x, In x (declared s) -> In x (declared s');
  g_feedback : declareFeedback s = true -> declareFeedback s' = true }.
Lemma grows_refl s : grows s s.
Proof. constructor; auto. Qed.
Lemma grows_trans s s' s'' : grows s s' -> grows s' s'' -> grows s s''.
Proof. intros [] []. constructor; auto. Qed.
Lemma with_response_grows s id n d : grows s (with_response s id n d).
Proof.
  constructor; cbn; auto; intros *; try apply dget_snoc. intros H. apply in_app_iff. auto.
Qed.
Lemma with_outcome_grows s id n d v : grows s (with_outcome s id n d v).
Proof.
  constructor; cbn; auto; intros *; try apply dget_snoc. intros H. apply in_app_iff. auto.
Qed.

(** ** Responses *)
Definition response_is (s : MigItem.state) (id : str) (mk : str -> MigWrite.declaration) : Prop :=
  exists n, dget id (responses s) = Some n /\ dget n (variables s) = Some (Declared (mk n)).
Lemma response_grows s s' id mk : grows s s' -> response_is s id mk -> response_is s' id mk.
Proof. intros G (n & H1 & H2). exists n. split; [apply G, H1|apply G, H2]. Qed.
Definition whole (r : response) : str -> MigWrite.declaration :=
  fun n => ResponseDeclaration n (r_cardinality r) (r_baseType r) (default_of (r_default r)).
Definition part (r : response) : str -> MigWrite.declaration :=
  fun n => ResponseDeclaration n (lit "single") (r_baseType r) None.
Definition fake (r : response) : str -> MigWrite.declaration :=
  fun n => OutcomeDeclaration n (r_cardinality r) (r_baseType r) None None None.
Definition part_id (r : response) (i : nat) : str := response_id (r_ident r) ++ lit "_INDEX_" ++ pystr (Z.of_nat i).
Definition response_in (s : MigItem.state) (r : response) : Prop :=
  response_is s (response_id (r_ident r)) (match r_split r with O => whole r | S _ => fake r end) /\
  forall i, (1 <= i <= r_split r)%nat -> response_is s (part_id r i) (part r).
Lemma response_in_grows s s' r : grows s s' -> response_in s r -> response_in s' r.
Proof. intros G [H1 H2]. split; [|intros i Hi]; eapply response_grows; eauto. Qed.

Definition rkept (s : MigItem.state) : Prop := forall id n, In (id, n) (responses s) -> n = id.
Definition okept (s : MigItem.state) : Prop := forall id n, In (id, n) (outcomes s) -> n = id.
Lemma kept_keys s id : inv s -> rkept s -> okept s -> id <> FEEDBACK -> ~ In id (map fst (responses s)) -> ~ In id (map fst (outcomes s)) ->
  dget id (variables s) = None.
Proof.
  intros I Hr Ho Hf H1 H2. apply dget_none. rewrite (i_keys s I). unfold names. cbn [In]. rewrite in_app_iff.
  intros [K|[K|K]]; [congruence| |]; apply in_map_iff in K as ([i n] & Hn & K); cbn [snd] in Hn; subst n.
  - apply H1, in_map_iff. exists (i, id). split; [|exact K]. cbn [fst]. symmetry. exact (Hr _ _ K).
  - apply H2, in_map_iff. exists (i, id). split; [|exact K]. cbn [fst]. symmetry. exact (Ho _ _ K).
Qed.

(** One declaration of a response *)
Lemma declare_step mk s id s' n : inv s -> (forall n, decl_identifier (mk n) = n) -> declare_response mk s id = Ok (s', n) ->
  inv s' /\ grows s s' /\ responses s' = responses s ++ [(id, n)] /\ outcomes s' = outcomes s /\ rules s' = rules s /\
  declareFeedback s' = declareFeedback s /\ response_is s' id mk /\ dget id (responses s') = Some n /\
  (rkept s -> okept s -> id <> FEEDBACK -> ~ In id (map fst (outcomes s)) -> rkept s').
Proof.
  intros I Hmk H. destruct (declare_response_eq mk s id s' n I Hmk H) as (-> & Hf & Hid & Hk & Horig).
  split; [apply with_response_inv; auto|]. split; [apply with_response_grows|]. do 4 (split; [reflexivity|]).
  split; [exists n; cbn; split; apply dget_last; assumption|]. split; [cbn; apply dget_last; exact Hid|].
  intros Kr Ko Kf Kout i m Hin. cbn in Hin. apply in_app_iff in Hin as [Hin|[[= <- <-]|[]]]; [auto|]. apply Hk.
  apply kept_keys; auto. apply dget_none, Hid.
Qed.

Definition Rphase (s : MigItem.state) : Prop := inv s /\ outcomes s = [] /\ declareFeedback s = false.
Lemma indexed_part r i : indexed (response_id (r_ident r)) i = part_id r i.
Proof. reflexivity. Qed.
Lemma declare_indexed_step r : forall k s i s' ns, Rphase s ->
  declare_indexed s (response_id (r_ident r)) (r_baseType r) i k = Ok (s', ns) ->
  Rphase s' /\ grows s s' /\ map fst (responses s') = map fst (responses s) ++ map (part_id r) (seq (S i) k) /\
  (forall j, (S i <= j <= i + k)%nat -> response_is s' (part_id r j) (part r)) /\
  map Some ns = map (fun j => dget (part_id r j) (responses s')) (seq (S i) k) /\ rules s' = rules s /\
  (rkept s -> ~ In FEEDBACK (map (part_id r) (seq (S i) k)) -> rkept s').
Proof.
  induction k as [|k IH]; intros s i s' ns P H; cbn [declare_indexed] in H.
  { injection H as <- <-. cbn [seq map]. rewrite app_nil_r. split; [exact P|]. split; [apply grows_refl|]. split; [reflexivity|].
    split; [intros; lia|]. split; [reflexivity|]. split; [reflexivity|]. auto. }
  destruct (DeclareResponse _ _ _ _ _) as [[s1 n1]|] eqn:E1; cbn [bind] in H; [|discriminate].
  destruct (declare_indexed s1 _ _ _ _) as [[s2 ns2]|] eqn:E2; cbn [bind] in H; [|discriminate]. injection H as <- <-.
  destruct P as (I & Po & Pf). unfold DeclareResponse in E1.
  apply declare_step in E1; [|exact I|reflexivity]. destruct E1 as (I1 & G1 & Hr1 & Ho1 & Hru1 & Hf1 & Hi1 & Hn1 & K1).
  assert (P1 : Rphase s1) by (split; [exact I1|split; congruence]).
  destruct (IH _ _ _ _ P1 E2) as (P2 & G2 & Hr2 & Hi2 & Hns2 & Hru2 & K2).
  split; [exact P2|]. split; [eapply grows_trans; eauto|]. split.
  { rewrite Hr2, Hr1, map_app, <- app_assoc. reflexivity. }
  split.
  { intros j Hj. destruct (Nat.eq_dec j (S i)) as [->|]; [|apply Hi2; lia]. eapply response_grows; [exact G2|].
    rewrite indexed_part in Hi1. exact Hi1. }
  split.
  { cbn [map seq]. f_equal; [|exact Hns2]. symmetry. apply G2. exact Hn1. }
  split; [congruence|]. intros Kr Kf. cbn [seq map In] in Kf. apply K2; [|tauto]. apply K1; [exact Kr| | |].
  - intros ? ? K. rewrite Po in K. destruct K.
  - rewrite indexed_part. intros K. apply Kf. left. exact K.
  - rewrite Po. intros [].
Qed.

Lemma response_step s r s' : Rphase s -> CloseResponse Vv s r = Ok s' ->
  Rphase s' /\ grows s s' /\ map fst (responses s') = map fst (responses s) ++ response_ids r /\ response_in s' r /\
  (rkept s -> ~ In FEEDBACK (response_ids r) -> rkept s') /\
  (r_split r = 0%nat -> rules s' = rules s).
Proof.
  intros P H. unfold CloseResponse in H. rewrite read_response in H. cbn [bind] in H. unfold response_ids, response_in.
  assert (Po : okept s) by (destruct P as (_ & Po & _); intros i n; rewrite Po; intros []).
  destruct (r_split r) as [|k] eqn:Ek.
  - destruct (DeclareResponse _ _ _ _ _) as [[s1 n1]|] eqn:E1; cbn [bind] in H; [|discriminate]. injection H as <-.
    unfold DeclareResponse in E1. destruct P as (I & Ho & Hf).
    apply declare_step in E1; [|exact I|reflexivity]. destruct E1 as (I1 & G1 & Hr1 & Ho1 & Hru1 & Hf1 & Hi1 & Hn1 & K1).
    split; [split; [exact I1|split; congruence]|]. split; [exact G1|]. split; [rewrite Hr1, map_app; reflexivity|].
    split; [split; [|intros; lia]|].
    { destruct Hi1 as (n & H1 & H2). exists n. split; [exact H1|]. unfold whole. rewrite <- set_default_of. exact H2. }
    split; [|auto]. cbn. intros Kr Kf. apply K1; auto. rewrite Ho. intros [].
  - destruct (declare_indexed _ _ _ _ _) as [[s1 ns]|] eqn:E1; cbn [bind] in H; [|discriminate].
    destruct (DeclareFakeResponse _ _ _ _) as [[s2 n2]|] eqn:E2; cbn [bind] in H; [|discriminate]. injection H as <-.
    apply declare_indexed_step in E1; [|exact P]. destruct E1 as (P1 & G1 & Hr1 & Hi1 & Hns1 & Hru1 & K1).
    destruct P1 as (I1 & Ho1 & Hf1). unfold DeclareFakeResponse in E2.
    apply declare_step in E2; [|exact I1|reflexivity]. destruct E2 as (I2 & G2 & Hr2 & Ho2 & Hru2 & Hf2 & Hi2 & Hn2 & K2).
    assert (G3 : forall r, grows s2 (add_rule s2 r)) by (intros; constructor; auto).
    split; [split; [constructor; apply I2|split; cbn; congruence]|].
    split; [eapply grows_trans; [exact G1|]; eapply grows_trans; [exact G2|apply G3]|].
    split; [cbn [add_rule responses]; rewrite Hr2, map_app, Hr1, <- app_assoc; reflexivity|].
    split; [split; [eapply response_grows; [apply G3|exact Hi2]|]|].
    { intros i Hi. eapply response_grows; [apply G3|]. eapply response_grows; [exact G2|]. apply Hi1. lia. }
    split; [|discriminate]. intros Kr Kf. rewrite in_app_iff in Kf. cbn [In] in Kf. apply K2; [apply K1; [exact Kr|tauto]| | |].
    + intros i n. rewrite Ho1. intros [].
    + tauto.
    + rewrite Ho1. intros [].
Qed.
Lemma responses_step : forall rs s s', Rphase s -> CloseResponses Vv s rs = Ok s' ->
  Rphase s' /\ grows s s' /\ map fst (responses s') = map fst (responses s) ++ flat_map response_ids rs /\
  (forall r, In r rs -> response_in s' r) /\
  (rkept s -> ~ In FEEDBACK (flat_map response_ids rs) -> rkept s') /\
  ((forall r, In r rs -> r_split r = 0%nat) -> rules s' = rules s).
Proof.
  induction rs as [|r rs IH]; intros s s' P H; cbn [CloseResponses] in H.
  { injection H as <-. cbn. rewrite app_nil_r. split; [exact P|]. split; [apply grows_refl|]. split; [reflexivity|]. split; [intros ? []|]. auto. }
  destruct (CloseResponse Vv s r) as [s1|] eqn:E; cbn [bind] in H; [|discriminate].
  destruct (response_step _ _ _ P E) as (P1 & G1 & Hr1 & Hi1 & K1 & Ru1).
  destruct (IH _ _ P1 H) as (P2 & G2 & Hr2 & Hi2 & K2 & Ru2).
  split; [exact P2|]. split; [eapply grows_trans; eauto|]. split; [cbn [flat_map]; rewrite Hr2, Hr1, app_assoc; reflexivity|].
  split; [intros x [<-|Hx]; [eapply response_in_grows; eauto|auto]|]. split.
  - cbn [flat_map]. rewrite in_app_iff. intros Kr Kf. apply K2; [apply K1; tauto|tauto].
  - intros Hs. rewrite Ru2, Ru1; [reflexivity|apply Hs; now left|intros x Hx; apply Hs; now right].
Qed.
Lemma Rphase_new : Rphase new_item.
Proof. split; [apply inv_new|split; reflexivity]. Qed.

(** ** Outcomes *)
Definition outcome_is (s : MigItem.state) (id t : str) (df : option str) (v : option decvar) : Prop :=
  exists n, dget id (outcomes s) = Some n /\
    dget n (variables s) = Some (Outcome (OutcomeDeclaration n (lit "single") t (default_of df) None None) v).
Lemma outcome_grows s s' id t df v : grows s s' -> outcome_is s id t df v -> outcome_is s' id t df v.
Proof. intros G (n & H1 & H2). exists n. split; [apply G, H1|apply G, H2]. Qed.

Definition same_rest (s s' : MigItem.state) : Prop := responses s' = responses s /\ rules s' = rules s.
Lemma declare_outcome_step s id t df v s' d : inv s -> dget id (outcomes s) = None -> declare_outcome s id t df v = Ok (s', d) ->
  inv s' /\ grows s s' /\ same_rest s s' /\ declareFeedback s' = declareFeedback s /\ (forall i, In i (map fst (outcomes s')) <-> In i (map fst (outcomes s)) \/ i = id) /\
  outcome_is s' id t df v /\
  (exists n, dget id (outcomes s') = Some n /\ dget n (variables s') = Some (Outcome d v) /\ decl_identifier d = n /\ is_response d = false) /\
  (rkept s -> okept s -> id <> FEEDBACK -> ~ In id (map fst (responses s)) -> okept s').
Proof.
  intros I Hid H. destruct (declare_outcome_eq s id t df v s' d I H) as (n & Hd & -> & Hf & Hk & Horig).
  rewrite dset_fresh by exact Hid. change (mkState _ _ _ _ _ _) with (with_outcome s id n d v).
  assert (Hdi : decl_identifier d = n) by (rewrite Hd; reflexivity). assert (Hdr : is_response d = false) by (rewrite Hd; reflexivity).
  split; [apply with_outcome_inv; auto|].
  split; [apply with_outcome_grows|]. split; [split; reflexivity|]. split; [reflexivity|].
  split; [intros i; cbn; rewrite map_app, in_app_iff; cbn; intuition congruence|].
  split; [exists n; split; [apply dget_last; assumption|]; rewrite <- set_default_of, <- Hd; apply dget_last, Hf|].
  split; [exists n; cbn; split; [apply dget_last, Hid|]; split; [apply dget_last, Hf|auto]|].
  intros Kr Ko Kf Kres i m Hin. cbn in Hin. apply in_app_iff in Hin as [Hin|[[= <- <-]|[]]]; [auto|]. apply Hk.
  apply kept_keys; auto. apply dget_none, Hid.
Qed.
Lemma get_outcome_step s id s' d : inv s -> GetOutcome s id = Ok (s', d) ->
  inv s' /\ grows s s' /\ same_rest s s' /\ declareFeedback s' = declareFeedback s /\ (forall i, In i (map fst (outcomes s')) <-> In i (map fst (outcomes s)) \/ i = id) /\
  (~ In id (map fst (outcomes s)) -> outcome_is s' id (lit "float") None None) /\
  (exists n v, dget id (outcomes s') = Some n /\ dget n (variables s') = Some (Outcome d v) /\ decl_identifier d = n /\ is_response d = false) /\
  (rkept s -> okept s -> id <> FEEDBACK -> ~ In id (map fst (responses s)) -> okept s').
Proof.
  intros I H. unfold GetOutcome in H. destruct (dget id (outcomes s)) as [n|] eqn:E.
  - pose proof (dget_in _ _ _ E) as Hin. destruct (i_outcome s I _ _ Hin) as (d' & v & H1 & H2 & H3 & H4). rewrite H1 in H. injection H as <- <-.
    split; [exact I|]. split; [apply grows_refl|]. split; [split; reflexivity|]. split; [reflexivity|]. split.
    { intros i. split; [auto|]. intros [K| ->]; [exact K|]. apply in_map_iff. exists (id, n). auto. }
    split; [intros K; exfalso; apply K, in_map_iff; exists (id, n); auto|]. split; [exists n, v; auto|]. auto.
  - destruct (declare_outcome_step _ _ _ _ _ _ _ I E H) as (H1 & H2 & H3 & H3' & H4 & H5 & (n & H6) & H7).
    do 5 (split; [assumption|]). split; [auto|]. split; [exists n, None; exact H6|exact H7].
Qed.

(** ** One resprocessing *)
Section Phase.
Variables (uc : bool).
Definition read_decvar (e : decvar_element) : decvar :=
  mkDec (decvar_id uc e) (de_baseType e) (de_default e) (de_min e) (de_max e).
Definition decvar_in (s : MigItem.state) (e : decvar_element) : Prop :=
  outcome_is s (decvar_id uc e) (de_baseType e) (de_default e) (Some (read_decvar e)).
Lemma close_decvar s e : CloseDecVar Vv uc s e = DeclareOutcome s (read_decvar e).
Proof.
  unfold CloseDecVar, read_decvar, decvar_id, outcome_named.
  destruct (de_varname e) as [v|].
  - rewrite read_outcome. cbn [bind]. destruct (Shapes.strip (de_data e)) as [|c data] eqn:E; cbn [str_eqb negb andb].
    + reflexivity.
    + destruct (str_eqb (outcome_id uc v) (lit "SCORE")) eqn:E1; cbn [bind]; [rewrite read_outcome|]; reflexivity.
  - cbn [bind]. destruct (Shapes.strip (de_data e)) as [|c data] eqn:E; cbn [str_eqb negb andb]; [reflexivity|].
    rewrite read_outcome. cbn [bind]. change (str_eqb (lit "SCORE") (lit "SCORE")) with true. reflexivity.
Qed.

(** What holds when the decvars [dvs] are declared and the outcomes [ids] set *)
Record Ophase (s0 s : MigItem.state) (dvs : list decvar_element) (ids : list str) : Prop := {
  o_inv : inv s;
  o_responses : responses s = responses s0;
  o_variables : forall id n, In (id, n) (responses s0) -> dget n (variables s) = dget n (variables s0);
  o_keys : forall i, In i (map fst (outcomes s)) <-> In i (map (decvar_id uc) dvs ++ ids);
  o_decvars : Forall (decvar_in s) dvs;
  o_implicit : forall j, In j ids -> ~ In j (map (decvar_id uc) dvs) -> outcome_is s j (lit "float") None None;
  o_kept : rkept s0 -> (forall i, In i (map (decvar_id uc) dvs ++ ids) -> i <> FEEDBACK /\ ~ In i (map fst (responses s0))) -> okept s }.

Lemma reset_phase s0 : inv s0 -> Ophase s0 (ResetResprocessing s0) [] [].
Proof.
  intros I. destruct (Reset_ok s0 I) as (H1 & H2 & H3 & H4 & H5 & H6 & H7). constructor; try assumption.
  - intros i. rewrite H3. reflexivity.
  - constructor.
  - intros ? [].
  - intros _ _ i n. rewrite H3. intros [].
Qed.
Lemma grow_variables s0 s s' : inv s -> grows s s' -> responses s = responses s0 ->
  (forall id n, In (id, n) (responses s0) -> dget n (variables s) = dget n (variables s0)) ->
  forall id n, In (id, n) (responses s0) -> dget n (variables s') = dget n (variables s0).
Proof.
  intros I G Hr H id n Hin. pose proof (H _ _ Hin) as H1. rewrite <- Hr in Hin. destruct (i_response s I _ _ Hin) as (d & H2 & _).
  rewrite (g_variables _ _ G _ _ H2). congruence.
Qed.
Lemma decvar_phase s0 s dvs e s' : Ophase s0 s dvs [] -> CloseDecVar Vv uc s e = Ok s' ->
  Ophase s0 s' (dvs ++ [e]) [] /\ grows s s' /\ ~ In (decvar_id uc e) (map (decvar_id uc) dvs) /\ declareFeedback s' = declareFeedback s /\ rules s' = rules s.
Proof.
  intros P H. rewrite close_decvar in H. unfold DeclareOutcome in H.
  destruct (has_key _ (outcomes s)) eqn:E; [discriminate|]. apply has_key_false in E. cbn [dv_identifier read_decvar dv_baseType dv_default] in *.
  destruct (declare_outcome _ _ _ _ _) as [[s1 d]|] eqn:E1; cbn [bind] in H; [|discriminate]. injection H as <-.
  destruct (declare_outcome_step _ _ _ _ _ _ _ (o_inv _ _ _ _ P) E E1) as (H1 & H2 & [H3 H3r] & H3' & H4 & H5 & (n & H6) & H7).
  assert (Hnew : ~ In (decvar_id uc e) (map (decvar_id uc) dvs)).
  { apply dget_none in E. rewrite (o_keys _ _ _ _ P), app_nil_r in E. exact E. }
  split; [|auto]. constructor.
  - exact H1.
  - rewrite H3. apply P.
  - eapply grow_variables; [apply P|exact H2|apply P|apply P].
  - intros i. rewrite H4, (o_keys _ _ _ _ P), map_app, !app_nil_r, in_app_iff. cbn. intuition congruence.
  - apply Forall_app. split; [|constructor; [exact H5|constructor]].
    eapply Forall_impl; [|apply (o_decvars _ _ _ _ P)]. intros x Hx. eapply outcome_grows; eauto.
  - intros ? [].
  - intros Kr Ki. rewrite map_app, app_nil_r in Ki. apply H7.
    + intros i m Hin. rewrite (o_responses _ _ _ _ P) in Hin. auto.
    + apply (o_kept _ _ _ _ P Kr). intros i Hi. rewrite app_nil_r in Hi. apply Ki, in_app_iff. auto.
    + apply Ki, in_app_iff. right. now left.
    + rewrite (o_responses _ _ _ _ P). apply Ki, in_app_iff. right. now left.
Qed.
Lemma decvars_phase s0 : forall l s dvs s', Ophase s0 s dvs [] -> CloseDecVars Vv uc s l = Ok s' ->
  Ophase s0 s' (dvs ++ l) [] /\ grows s s' /\ declareFeedback s' = declareFeedback s /\ rules s' = rules s.
Proof.
  induction l as [|e l IH]; intros s dvs s' P H; cbn [CloseDecVars] in H.
  { injection H as <-. rewrite app_nil_r. split; [exact P|]. split; [apply grows_refl|auto]. }
  destruct (CloseDecVar Vv uc s e) as [s1|] eqn:E; cbn [bind] in H; [|discriminate].
  destruct (decvar_phase _ _ _ _ _ P E) as (P1 & G1 & _ & F1 & R1). destruct (IH _ _ _ P1 H) as (P2 & G2 & F2 & R2).
  rewrite <- app_assoc in P2. split; [exact P2|]. split; [eapply grows_trans; eauto|]. split; congruence.
Qed.
Lemma get_phase s0 s dvs ids id s' d : Ophase s0 s dvs ids -> GetOutcome s id = Ok (s', d) ->
  Ophase s0 s' dvs (ids ++ [id]) /\ grows s s' /\ declareFeedback s' = declareFeedback s /\
  exists n v, dget id (outcomes s') = Some n /\ dget n (variables s') = Some (Outcome d v) /\ decl_identifier d = n /\ is_response d = false.
Proof.
  intros P H. destruct (get_outcome_step _ _ _ _ (o_inv _ _ _ _ P) H) as (H1 & H2 & [H3 _] & H3' & H4 & H5 & H6 & H7).
  split; [|auto]. constructor.
  - exact H1.
  - rewrite H3. apply P.
  - eapply grow_variables; [apply P|exact H2|apply P|apply P].
  - intros i. rewrite H4, (o_keys _ _ _ _ P), !in_app_iff. cbn. intuition congruence.
  - eapply Forall_impl; [|apply (o_decvars _ _ _ _ P)]. intros x Hx. eapply outcome_grows; eauto.
  - intros j Hj Hn. apply in_app_iff in Hj. destruct (in_dec str_eq_dec j ids) as [Hi|Hi].
    + eapply outcome_grows; [exact H2|]. apply (o_implicit _ _ _ _ P); assumption.
    + destruct Hj as [Hj|[<-|[]]]; [contradiction|]. apply H5. rewrite (o_keys _ _ _ _ P), in_app_iff. tauto.
  - intros Kr Ki. apply H7.
    + intros i m Hin. rewrite (o_responses _ _ _ _ P) in Hin. auto.
    + apply (o_kept _ _ _ _ P Kr). intros i Hi. apply Ki. rewrite !in_app_iff in *. tauto.
    + apply Ki. rewrite !in_app_iff. right. right. now left.
    + rewrite (o_responses _ _ _ _ P). apply Ki. rewrite !in_app_iff. right. right. now left.
Qed.
Lemma feedback_phase s0 s dvs ids s' : Ophase s0 s dvs ids -> DeclareFeedback s = Ok s' ->
  Ophase s0 s' dvs ids /\ grows s s' /\ declareFeedback s' = true /\ (declareFeedback s = false -> In (FEEDBACK, feedback_declaration) (declared s')).
Proof.
  intros P H. destruct (DeclareFeedback_eq s (o_inv _ _ _ _ P)) as (s1 & E & I1 & F1 & Hv & Hr & Ho & Hru & Hd & Hd1 & Hd2).
  rewrite E in H. injection H as <-.
  assert (G : grows s s1) by (constructor; rewrite ?Hr, ?Ho, ?Hv; auto).
  split; [|auto]. constructor.
  - exact I1.
  - rewrite Hr. apply P.
  - intros id n Hin. rewrite Hv. apply (o_variables _ _ _ _ P id n Hin).
  - rewrite Ho. apply P.
  - eapply Forall_impl; [|apply (o_decvars _ _ _ _ P)]. intros x Hx. eapply outcome_grows; eauto.
  - intros j Hj Hn. eapply outcome_grows; [exact G|]. apply (o_implicit _ _ _ _ P); assumption.
  - intros Kr Ki i n Hin. rewrite Ho in Hin. exact (o_kept _ _ _ _ P Kr Ki i n Hin).
Qed.

(** The flag and the declaration of FEEDBACK; [b] when none is to be declared *)
Definition flag_ok (s0 s : MigItem.state) : Prop :=
  declareFeedback s0 = false -> declareFeedback s = true -> In (FEEDBACK, feedback_declaration) (declared s).
Definition rule_of (v : MigItem.setvar) (d : MigWrite.declaration) : rule :=
  SetOutcomeValue (decl_identifier d)
    match MigItem.sv_action v with
    | MigItem.ASet => BaseValueOperator (decl_baseType d) (MigItem.sv_text v)
    | MigItem.AAdd => MultiOperator (lit "sum") [VariableOperator (decl_identifier d); BaseValueOperator (decl_baseType d) (MigItem.sv_text v)]
    | MigItem.ASubtract => BinaryOperator (lit "subtract") (VariableOperator (decl_identifier d)) (BaseValueOperator (decl_baseType d) (MigItem.sv_text v))
    | MigItem.AMultiply => MultiOperator (lit "product") [VariableOperator (decl_identifier d); BaseValueOperator (decl_baseType d) (MigItem.sv_text v)]
    | MigItem.ADivide => BinaryOperator (lit "divide") (VariableOperator (decl_identifier d)) (BaseValueOperator (decl_baseType d) (MigItem.sv_text v))
    end.
(** [d] is what the outcome [id] is declared as *)
Definition outcome_has (s : MigItem.state) (id : str) (d : MigWrite.declaration) : Prop :=
  exists n v, dget id (outcomes s) = Some n /\ dget n (variables s) = Some (Outcome d v) /\ decl_identifier d = n /\ is_response d = false.
Lemma outcome_has_grows s s' id d : grows s s' -> outcome_has s id d -> outcome_has s' id d.
Proof. intros G (n & v & H1 & H2 & H3). exists n, v. split; [apply G, H1|]. split; [apply G, H2|exact H3]. Qed.
Definition set_rule_in (s : MigItem.state) (v : MigItem.setvar) (r : rule) : Prop :=
  exists d, outcome_has s (outcome_named uc (MigItem.sv_varname v)) d /\ r = rule_of v d.
Definition show_rule (f : str) : rule := SetOutcomeValue FEEDBACK
  (MultiOperator (lit "multiple") [VariableOperator FEEDBACK; BaseValueOperator (lit "identifier") (feedback_id f)]).

Lemma flag_grows s0 s s' : grows s s' -> declareFeedback s' = declareFeedback s -> flag_ok s0 s -> flag_ok s0 s'.
Proof. intros G E F H1 H2. apply G. rewrite E in H2. auto. Qed.
Lemma sets_phase s0 : forall l s dvs ids s' rs, Ophase s0 s dvs ids -> flag_ok s0 s -> thread (CloseSetVar Vv uc) s l = Ok (s', rs) ->
  Ophase s0 s' dvs (ids ++ map (fun v => outcome_named uc (MigItem.sv_varname v)) l) /\ grows s s' /\
  declareFeedback s' = declareFeedback s /\ flag_ok s0 s' /\ Forall2 (set_rule_in s') l rs.
Proof.
  induction l as [|v l IH]; intros s dvs ids s' rs P F H; cbn [thread] in H.
  { injection H as <- <-. cbn. rewrite app_nil_r. split; [exact P|]. split; [apply grows_refl|]. auto. }
  destruct (CloseSetVar Vv uc s v) as [[s1 r]|] eqn:E; cbn [bind] in H; [|discriminate].
  destruct (thread _ s1 l) as [[s2 rs2]|] eqn:E2; cbn [bind] in H; [|discriminate]. injection H as <- <-.
  unfold CloseSetVar in E. rewrite read_varname in E. cbn [bind] in E.
  destruct (GetOutcome s _) as [[s3 d]|] eqn:E3; cbn [bind] in E; [|discriminate]. injection E as <- <-.
  destruct (get_phase _ _ _ _ _ _ _ P E3) as (P1 & G1 & F1 & D1).
  destruct (IH _ _ _ _ _ P1 (flag_grows _ _ _ G1 F1 F) E2) as (P2 & G2 & F2 & F2' & R2).
  rewrite <- app_assoc in P2. split; [exact P2|]. split; [eapply grows_trans; eauto|]. split; [congruence|]. split; [exact F2'|].
  constructor; [|exact R2]. exists d. split; [eapply outcome_has_grows; [exact G2|exact D1]|reflexivity].
Qed.
Lemma shows_phase s0 : forall l s dvs ids s' rs, Ophase s0 s dvs ids -> flag_ok s0 s -> thread (CloseDisplayFeedback Vv) s l = Ok (s', rs) ->
  Ophase s0 s' dvs ids /\ grows s s' /\ (l = [] -> declareFeedback s' = declareFeedback s) /\ (l <> [] -> declareFeedback s' = true) /\
  flag_ok s0 s' /\ rs = map show_rule l.
Proof.
  induction l as [|v l IH]; intros s dvs ids s' rs P F H; cbn [thread] in H.
  { injection H as <- <-. split; [exact P|]. split; [apply grows_refl|]. split; [reflexivity|]. split; [congruence|]. auto. }
  destruct (CloseDisplayFeedback Vv s v) as [[s1 r]|] eqn:E; cbn [bind] in H; [|discriminate].
  destruct (thread _ s1 l) as [[s2 rs2]|] eqn:E2; cbn [bind] in H; [|discriminate]. injection H as <- <-.
  unfold CloseDisplayFeedback in E. rewrite read_feedback in E. cbn [bind] in E.
  destruct (DeclareFeedback s) as [s3|] eqn:E3; cbn [bind] in E; [|discriminate]. injection E as <- <-.
  destruct (feedback_phase _ _ _ _ _ P E3) as (P1 & G1 & F1 & D1).
  assert (Fl : flag_ok s0 s3).
  { intros H1 H2. destruct (declareFeedback s) eqn:Ef; [|auto]. apply G1. auto. }
  destruct (IH _ _ _ _ _ P1 Fl E2) as (P2 & G2 & _ & _ & F2' & R2).
  split; [exact P2|]. split; [eapply grows_trans; eauto|]. split; [discriminate|]. split; [intros _; apply G2, F1|]. split; [exact F2'|].
  rewrite R2. reflexivity.
Qed.

(** What the conditions are converted to *)
Definition part_in (s1 s : MigItem.state) (c : MigItem.respcondition) (p : option expr * list rule) : Prop :=
  exists e sets, CloseConditionVar Vv s1 (rc_tests c) = Ok e /\ Forall2 (set_rule_in s) (MigItem.rc_setvars c) sets /\
    p = (Some e, sets ++ map show_rule (MigItem.rc_feedback c)).
Definition cond_ids (l : list MigItem.respcondition) : list str :=
  flat_map (fun c => map (fun v => outcome_named uc (MigItem.sv_varname v)) (MigItem.rc_setvars c)) l.
Lemma condition_phase s0 s dvs ids c s' p : Ophase s0 s dvs ids -> flag_ok s0 s -> CloseRespCondition Vv uc s c = Ok (s', p) ->
  Ophase s0 s' dvs (ids ++ cond_ids [c]) /\ grows s s' /\ part_in s s' c p /\ flag_ok s0 s' /\
  (MigItem.rc_feedback c = [] -> declareFeedback s' = declareFeedback s) /\ (MigItem.rc_feedback c <> [] -> declareFeedback s' = true).
Proof.
  intros P F H. unfold CloseRespCondition in H. destruct (CloseConditionVar _ _ _) as [e|] eqn:E; cbn [bind] in H; [|discriminate].
  destruct (thread _ s _) as [[s1 sets]|] eqn:E1; cbn [bind] in H; [|discriminate].
  destruct (thread _ s1 _) as [[s2 shows]|] eqn:E2; cbn [bind] in H; [|discriminate]. injection H as <- <-.
  destruct (sets_phase _ _ _ _ _ _ _ P F E1) as (P1 & G1 & F1 & Fl1 & R1).
  destruct (shows_phase _ _ _ _ _ _ _ P1 Fl1 E2) as (P2 & G2 & F2 & F2' & Fl2 & R2).
  unfold cond_ids. cbn [flat_map]. rewrite app_nil_r. split; [exact P2|]. split; [eapply grows_trans; eauto|].
  split; [exists e, sets; split; [exact E|]; split; [|rewrite R2; reflexivity]|].
  { clear - R1 G2. induction R1 as [|v r l rs Hv _ IH]; constructor; [|exact IH]. destruct Hv as (d & H1 & H2). exists d.
    split; [eapply outcome_has_grows; eauto|exact H2]. }
  split; [exact Fl2|]. split; [intros K; rewrite (F2 K); exact F1|exact F2'].
Qed.
End Phase.
