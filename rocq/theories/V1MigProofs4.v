(** Proofs that migrated actions do what the version 1 actions did. *)
From Coq Require Import QArith Qcanon Lia.
From Verif Require Import Py Dec XmlUtils XmlChars Xsd Shapes QtiValue QtiExpr QtiSpec QtiProc QtiProcSpec
  QtiProofs QtiProofs2 QtiProofs3 QtiProofs4 QtiProcProofs QtiProcProofs2 QtiProcProofs3 V1Mig V1MigSpec V1MigProofs V1MigProofs2 V1MigProofs3.
Open Scope Z_scope.
Open Scope list_scope.

Lemma qz_add x y : qz (x + y) = Qcplus (qz x) (qz y).
Proof. unfold qz, Qcplus. apply Qc_is_canon. cbn [this Q2Qc]. rewrite !Qred_correct, inject_Z_plus. reflexivity. Qed.
Lemma qz_mul x y : qz (x * y) = Qcmult (qz x) (qz y).
Proof. unfold qz, Qcmult. apply Qc_is_canon. cbn [this Q2Qc]. rewrite !Qred_correct, inject_Z_mult. reflexivity. Qed.
Lemma qz_opp x : qz (- x) = Qcopp (qz x).
Proof. unfold qz, Qcopp. apply Qc_is_canon. cbn [this Q2Qc]. rewrite !Qred_correct, inject_Z_opp. reflexivity. Qed.
Lemma qz_sub x y : qz (x - y) = Qcminus (qz x) (qz y).
Proof. unfold Qcminus, Z.sub. rewrite qz_add, qz_opp. reflexivity. Qed.

Section Actions.
Context {X : Ext}.

(** Well-typed sessions *)
Lemma well_typed_typed st : well_typed st -> typed st.
Proof.
  intros H n d Hd. destruct (declared _ _ _ Hd) as [<- Hin].
  assert (G : exists r, In (d_id d, r) (variables (s_item st)) /\ type_of r = declared_type d /\ optional r = false).
  { unfold variables. destruct Hin as [Hin|[Hin|Hin]].
    - exists (Response d). split; [|auto]. apply in_app_iff. right. apply in_app_iff. right. apply in_app_iff. left.
      apply in_flat_map. exists d. split; [exact Hin|]. left. reflexivity.
    - exists (Outcome d). split; [|auto]. apply in_app_iff. right. apply in_app_iff. right. apply in_app_iff. right.
      apply in_flat_map. exists d. split; [exact Hin|]. left. reflexivity.
    - exists (Template d). split; [|auto]. apply in_app_iff. left. apply in_map_iff. eauto. }
  destruct G as (r & Hr & Htr & Hor). specialize (H _ _ Hr). destruct (assoc (d_id d) (s_map st)) as [v|]; [|congruence].
  exists v. split; [reflexivity|]. rewrite Htr in H. unfold declared_type in H. injection H as H1 H2. auto.
Qed.
(** Every declaration but that of a record has a base type *)
Definition based (i : item) : Prop := forall n d, find_decl i n = Some d -> d_card d <> Some CRecord -> d_base d <> None.

Lemma put_wf st n v : wf_state st -> wf_value v -> wf_state (put st n v).
Proof.
  intros H Hv m w. cbn [put s_map]. destruct (str_eqb m n) eqn:E.
  - apply str_eqb_eq in E as ->. rewrite assoc_sset_same. intros [= <-]. exact Hv.
  - apply str_eqb_neq in E. rewrite assoc_sset_other by exact E. apply H.
Qed.
Lemma put_only st n v : only_changes n st (put st n v).
Proof. split; [reflexivity|]. intros m Hm. unfold same_value. cbn [put s_map]. apply assoc_sset_other, Hm. Qed.

(** Storing a single value *)
Lemma set_single n b old w st st' : assoc n (s_map st) = Some (VSingle (Some b) old) -> set_item n w st = (st', None) ->
  card w = Some CSingle -> exists oa new, w = VSingle (base w) oa /\ (base w = Some b \/ base w = None) /\
    st' = put st n (VSingle (Some b) new) /\
    match oa with None => new = None | Some a => parse_single b (raw_of a) = Ok new end.
Proof.
  intros Ho H Hc. unfold set_item, lift, get_var in H. rewrite Ho in H. destruct w as [| |bt oa| | |]; try discriminate Hc.
  cbn [card base cardinality_eqb opt_eqb negb] in H. exists oa.
  assert (Hb : bt = Some b \/ bt = None).
  { destruct bt as [b'|]; [|auto]. cbn [opt_eqb] in H. destruct (baseType_eqb b' b) eqn:E; [|discriminate].
    destruct b', b; try discriminate E; auto. }
  destruct (match bt with None => false | Some _ => _ end); [discriminate|].
  destruct oa as [a|]; cbn [payload_of] in H.
  - assert (Hp : exists new, parse_single b (raw_of a) = Ok new /\ st' = put st n (VSingle (Some b) new)).
    { cbn [set_value] in H. destruct (parse_single b (raw_of a)) as [new|] eqn:E; [|destruct b; discriminate].
      exists new. split; [reflexivity|]. destruct b; injection H as <-; reflexivity. }
    destruct Hp as (new & Hp & ->). exists new. auto.
  - cbn [set_value] in H. exists None. destruct b; injection H as <-; auto.
Qed.

Lemma raw_parse_wf b t a new : parse_single b (RText t) = Ok (Some a) -> parse_single b (raw_of a) = Ok new ->
  new = Some a /\ wf_atom b a.
Proof.
  intros H H'. assert (Hwf : wf_atom b a).
  { destruct (match b with BInteger => true | _ => false end) eqn:E.
    - destruct b; try discriminate E. pose proof (parse_class _ _ _ H) as Hc. destruct a; try contradiction.
      cbn [raw_of parse_single] in H'. destruct (in_range n) eqn:Er; [|discriminate]. apply in_range_iff. exact Er.
    - eapply parse_wf; [exact H| | |reflexivity]; destruct b; try exact I; discriminate E. }
  split; [|exact Hwf]. rewrite (parse_raw _ _ Hwf) in H'. congruence.
Qed.

(** The operators on the variable and the literal *)
Definition number_value (b : baseType) (zop : Z -> Z -> Z) (qop : Qc -> Qc -> Qc) (old l : option atom) (v : value) : Prop :=
  (b = BInteger /\
   ((old = None \/ l = None) /\ v = VSingle (Some BInteger) None \/
    exists p q, old = Some (AInt p) /\ l = Some (AInt q) /\ mkint (Some (zop p q)) = Ok v)) \/
  (b = BFloat /\
   ((old = None \/ l = None) /\ v = VSingle (Some BFloat) None \/
    exists x y, onumeral old x /\ onumeral l y /\ v = mkfloat (Some (qop x y)))).

Lemma to_int_ok bt oa n : to_int (VSingle bt oa) = Ok n -> oa = Some (AInt n).
Proof. destruct oa as [[]|]; cbn; congruence. Qed.
Lemma to_float_ok bt oa x : to_float (VSingle bt oa) = Ok x -> onumeral oa x.
Proof.
  destruct oa as [[]|]; cbn; try congruence; intros [= <-]; eexists; (split; [reflexivity|]); [right; reflexivity|].
  left. eauto.
Qed.
Lemma null_single bt oa : non_null (VSingle bt oa) = false -> oa = None.
Proof. destruct oa; [discriminate|reflexivity]. Qed.

Lemma fold_value zop zu qop qu b old l v : op_fold zop zu qop qu [VSingle (Some b) old; VSingle (Some b) l] = Ok v ->
  number_value b (fun p q => zop (zop zu p) q) (fun x y => qop (qop qu x) y) old l v.
Proof.
  intros H. unfold op_fold in H. cbn [map card app base] in H. unfold CheckCardinalities in H. cbn [check_cards cardinality_eqb bind] in H.
  unfold CheckNumericalTypes in H. cbn [check_numeric] in H. destruct (numeric b) eqn:En; cbn [negb bind] in H; [|discriminate].
  assert (Eb : baseType_eqb b b = true) by (destruct b; reflexivity). rewrite Eb in H. cbn [bind] in H.
  destruct b; try discriminate En; cbn [num_loop] in H.
  - right. split; [reflexivity|]. destruct (non_null (VSingle (Some BFloat) old)) eqn:N1; cbn [bind] in H.
    2:{ apply null_single in N1. injection H as <-. auto. }
    destruct (to_float (VSingle _ old)) as [x|] eqn:Ex; cbn [bind] in H; [|discriminate].
    destruct (non_null (VSingle (Some BFloat) l)) eqn:N2; cbn [bind] in H.
    2:{ apply null_single in N2. injection H as <-. auto. }
    destruct (to_float (VSingle _ l)) as [y|] eqn:Ey; cbn [bind] in H; [|discriminate]. injection H as <-.
    right. exists x, y. eauto using to_float_ok.
  - left. split; [reflexivity|]. destruct (non_null (VSingle (Some BInteger) old)) eqn:N1; cbn [bind] in H.
    2:{ apply null_single in N1. injection H as <-. auto. }
    destruct (to_int (VSingle _ old)) as [x|] eqn:Ex; cbn [bind] in H; [|discriminate].
    destruct (non_null (VSingle (Some BInteger) l)) eqn:N2; cbn [bind] in H.
    2:{ apply null_single in N2. injection H as <-. auto. }
    destruct (to_int (VSingle _ l)) as [y|] eqn:Ey; cbn [bind] in H; [|discriminate].
    right. exists x, y. eauto using to_int_ok.
Qed.
Lemma two_ok b old l r : two_numbers [VSingle (Some b) old; VSingle (Some b) l] = Ok r ->
  (b = BInteger \/ b = BFloat) /\ r = (Some b, VSingle (Some b) old, VSingle (Some b) l).
Proof.
  intros H. unfold two_numbers in H. cbn [two bind card base] in H. unfold CheckNumericalTypes in H. cbn [check_numeric] in H.
  destruct (numeric b) eqn:En; cbn [negb bind] in H; [|discriminate].
  assert (Eb : baseType_eqb b b = true) by (destruct b; reflexivity). rewrite Eb in H. cbn [bind] in H.
  unfold CheckCardinalities in H. cbn [check_cards cardinality_eqb bind] in H. injection H as <-.
  split; [|reflexivity]. destruct b; try discriminate En; auto.
Qed.
Lemma subtract_value b old l v : op_subtract [VSingle (Some b) old; VSingle (Some b) l] = Ok v ->
  number_value b Z.sub Qcminus old l v.
Proof.
  intros H. unfold op_subtract in H. destruct (two_numbers _) as [r|] eqn:E; cbn [bind] in H; [|discriminate].
  apply two_ok in E as [Hnum ->]. destruct Hnum as [->| ->].
  - left. split; [reflexivity|]. destruct (non_null (VSingle (Some BInteger) old)) eqn:N1; cbn [andb] in H.
    2:{ apply null_single in N1. injection H as <-. auto. }
    destruct (non_null (VSingle (Some BInteger) l)) eqn:N2.
    2:{ apply null_single in N2. injection H as <-. auto. }
    destruct (to_int (VSingle _ old)) as [x|] eqn:Ex; cbn [bind] in H; [|discriminate].
    destruct (to_int (VSingle _ l)) as [y|] eqn:Ey; cbn [bind] in H; [|discriminate].
    right. exists x, y. eauto using to_int_ok.
  - right. split; [reflexivity|]. destruct (non_null (VSingle (Some BFloat) old)) eqn:N1; cbn [andb] in H.
    2:{ apply null_single in N1. injection H as <-. auto. }
    destruct (non_null (VSingle (Some BFloat) l)) eqn:N2.
    2:{ apply null_single in N2. injection H as <-. auto. }
    destruct (to_float (VSingle _ old)) as [x|] eqn:Ex; cbn [bind] in H; [|discriminate].
    destruct (to_float (VSingle _ l)) as [y|] eqn:Ey; cbn [bind] in H; [|discriminate]. injection H as <-.
    right. exists x, y. eauto using to_float_ok.
Qed.
Lemma divide_value b old l v : op_divide [VSingle (Some b) old; VSingle (Some b) l] = Ok v ->
  (b = BInteger \/ b = BFloat) /\
  ((old = None \/ l = None) /\ v = mkfloat None \/
   exists x y, onumeral old x /\ onumeral l y /\ (y = q0 /\ v = mkfloat None \/ y <> q0 /\ v = mkfloat (Some (Qcdiv x y)))).
Proof.
  intros H. unfold op_divide in H. destruct (two_numbers _) as [r|] eqn:E; cbn [bind] in H; [|discriminate].
  apply two_ok in E as [Hnum ->]. split; [exact Hnum|].
  destruct (non_null (VSingle (Some b) old)) eqn:N1; cbn [andb] in H.
  2:{ apply null_single in N1. injection H as <-. auto. }
  destruct (non_null (VSingle (Some b) l)) eqn:N2.
  2:{ apply null_single in N2. injection H as <-. auto. }
  destruct (to_float (VSingle _ old)) as [x|] eqn:Ex; cbn [bind] in H; [|discriminate].
  destruct (to_float (VSingle _ l)) as [y|] eqn:Ey; cbn [bind] in H; [|discriminate].
  right. exists x, y. split; [eapply to_float_ok; eassumption|]. split; [eapply to_float_ok; eassumption|].
  destruct (qc_eqb y q0) eqn:Eq; injection H as <-.
  - left. split; [|reflexivity]. apply qc_eqb_eq, Eq.
  - right. split; [|reflexivity]. intros ->. assert (K : qc_eqb q0 q0 = true) by (apply qc_eqb_eq; reflexivity). congruence.
Qed.
Lemma number_stored b zop qop n old t l v st st' : wf_value (VSingle (Some b) old) -> parse_single b (RText t) = Ok l ->
  number_value b zop qop old l v -> assoc n (s_map st) = Some (VSingle (Some b) old) -> set_item n v st = (st', None) ->
  exists new, st' = put st n (VSingle (Some b) new) /\ wf_value (VSingle (Some b) new) /\
    ((old = None \/ l = None) /\ new = None \/
     exists x y, onumeral old x /\ onumeral l y /\
      ((exists p q, x = qz p /\ y = qz q /\ new = Some (AInt (zop p q))) \/ b = BFloat /\ new = Some (AFloat (qop x y)))).
Proof.
  intros Hwold Hl Hv Ho Hs. assert (Hc : card v = Some CSingle).
  { destruct Hv as [[-> [[_ ->]|(p & q & _ & _ & Hm)]]|[-> [[_ ->]|(x & y & _ & _ & ->)]]]; try reflexivity.
    unfold mkint in Hm. destruct (in_range _); [|discriminate]. injection Hm as <-. reflexivity. }
  destruct (set_single _ _ _ _ _ _ Ho Hs Hc) as (oa & new & E1 & _ & -> & Hnew). exists new. split; [reflexivity|].
  destruct Hv as [[-> [[Hn ->]|(p & q & -> & -> & Hm)]]|[-> [[Hn ->]|(x & y & Hx & Hy & ->)]]].
  - injection E1 as <-. subst new. split; [exact I|]. auto.
  - unfold mkint in Hm. destruct (in_range (zop p q)) eqn:Er; [|discriminate]. injection Hm as <-. injection E1 as <-.
    cbn [raw_of parse_single] in Hnew. rewrite Er in Hnew. injection Hnew as <-. split; [cbn; apply in_range_iff, Er|].
    right. exists (qz p), (qz q). split; [eexists; split; [reflexivity|left; eauto]|]. split; [eexists; split; [reflexivity|left; eauto]|].
    left. eauto.
  - injection E1 as <-. subst new. split; [exact I|]. auto.
  - injection E1 as <-. cbn [option_map raw_of parse_single] in Hnew. injection Hnew as <-. split; [exact I|]. right. exists x, y. auto.
Qed.

Variables (i : item) (st : state).
Hypothesis Hw : wf_state st.
Hypothesis Ht : well_typed st.
Hypothesis Hi : declares i st.
Hypothesis Hb : based i.

Lemma set_runs s a st' : MigrateSetVar i s = Ok a -> run_set_outcome a st = (st', None) ->
  sets s st st' /\ wf_state st' /\ well_typed st' /\ s_item st' = s_item st.
Proof.
  intros Hm Hr. unfold MigrateSetVar in Hm. destruct (find_decl i (v2id (sv_name s))) as [d|] eqn:Ed; [|discriminate].
  assert (Hdc : d_card d = Some CSingle) by (destruct (d_card d) as [[]|]; try discriminate; reflexivity).
  rewrite Hdc in Hm. destruct (find_declared i st Hi _ _ Ed) as [Eid Hd].
  destruct (well_typed_typed _ Ht _ _ Hd) as (v0 & Ev0 & Hc0 & Hb0). rewrite Hdc in Hc0, Hb0.
  assert (Hnb : d_base d <> None) by (apply (Hb _ _ Ed); rewrite Hdc; discriminate).
  destruct (d_base d) as [b|] eqn:Eb; [clear Hnb|congruence].
  destruct v0 as [| |bt old| | |]; try discriminate Hc0. cbn [base] in Hb0. subst bt.
  set (n := v2id (sv_name s)) in *.
  assert (Hso : so_id a = n) by (injection Hm as <-; reflexivity).
  unfold run_set_outcome in Hr. destruct (so_expr a) as [e|] eqn:Ese; [|discriminate].
  unfold lift at 1 in Hr. destruct (eval st e) as [v|] eqn:Ee; [|discriminate].
  unfold lift at 1 in Hr. destruct (IsOutcome st (so_id a)) as [[]|]; try discriminate. rewrite Hso in Hr.
  assert (Hty : well_typed st' /\ s_item st' = s_item st).
  { pose proof (set_item_typed n v st Ht) as G. rewrite Hr in G. exact G. }
  assert (Elit : forall w, new_single (Some b) (Some (RText (strip (sv_text s)))) = Ok w ->
    exists l, w = VSingle (Some b) l /\ parse_single b (RText (strip (sv_text s))) = Ok l).
  { intros w H. unfold new_single in H. destruct b; try discriminate;
      match type of H with bind ?e _ = _ => destruct e as [l|]; cbn [bind] in H; [|discriminate] end; injection H as <-; eauto. }
  assert (Evar : ev_variable st n = Ok (VSingle (Some b) old)).
  { unfold ev_variable, get_var. rewrite Ev0. reflexivity. }
  pose proof (Hw _ _ Ev0) as Hwold.
  assert (Hk : exists l new, parse_single b (RText (strip (sv_text s))) = Ok l /\
     st' = put st n (VSingle (Some b) new) /\ effect (sv_action s) old l new /\ wf_value (VSingle (Some b) new)).
  { destruct (sv_action s) eqn:Eact.
    - (* Set *)
      injection Hm as <-. cbn [so_expr] in Ese. injection Ese as <-.
      destruct (Elit _ Ee) as (l & -> & Hl). exists l.
      destruct (set_single _ _ _ _ _ _ Ev0 Hr eq_refl) as (oa & new & E1 & _ & -> & Hn). injection E1 as <-. exists new.
      split; [exact Hl|]. split; [reflexivity|]. destruct l as [al|].
      + destruct (raw_parse_wf _ _ _ _ Hl Hn) as [-> Hwf]. cbn. auto.
      + subst new. cbn. auto.
    - injection Hm as <-. cbn [so_expr] in Ese. injection Ese as <-. cbn [eval mapM] in Ee. rewrite Evar in Ee. cbn [bind] in Ee.
      destruct (new_single (Some b) (Some (RText (strip (sv_text s))))) as [w|] eqn:Ew; cbn [bind] in Ee; [|discriminate].
      destruct (Elit _ eq_refl) as (l & -> & Hl). apply fold_value in Ee. exists l.
      destruct (number_stored _ _ _ _ _ _ _ _ _ _ Hwold Hl Ee Ev0 Hr) as (new & -> & Hwf & Hn). exists new. split; [exact Hl|]. split; [reflexivity|]. split; [|exact Hwf].
      destruct Hn as [[Hn1 ->]|(x & y & Hx & Hy & Hn)]; [left; auto|right]. exists x, y. split; [exact Hx|]. split; [exact Hy|].
      destruct Hn as [(p & q & -> & -> & ->)|(_ & ->)].
      + exists (AInt (0 + p + q)). split; [reflexivity|]. left. exists (0 + p + q). split; [reflexivity|]. rewrite <- qz_add. reflexivity.
      + exists (AFloat (Qcplus (Qcplus q0 x) y)). split; [reflexivity|]. right. f_equal. unfold q0. ring.
    - injection Hm as <-. cbn [so_expr] in Ese. injection Ese as <-. cbn [eval mapM] in Ee. rewrite Evar in Ee. cbn [bind] in Ee.
      destruct (new_single (Some b) (Some (RText (strip (sv_text s))))) as [w|] eqn:Ew; cbn [bind] in Ee; [|discriminate].
      destruct (Elit _ eq_refl) as (l & -> & Hl). apply subtract_value in Ee. exists l.
      destruct (number_stored _ _ _ _ _ _ _ _ _ _ Hwold Hl Ee Ev0 Hr) as (new & -> & Hwf & Hn). exists new. split; [exact Hl|]. split; [reflexivity|]. split; [|exact Hwf].
      destruct Hn as [[Hn1 ->]|(x & y & Hx & Hy & Hn)]; [left; auto|right]. exists x, y. split; [exact Hx|]. split; [exact Hy|].
      destruct Hn as [(p & q & -> & -> & ->)|(_ & ->)].
      + exists (AInt (p - q)). split; [reflexivity|]. left. exists (p - q). split; [reflexivity|]. rewrite <- qz_sub. reflexivity.
      + exists (AFloat (Qcminus x y)). split; [reflexivity|]. right. reflexivity.
    - injection Hm as <-. cbn [so_expr] in Ese. injection Ese as <-. cbn [eval mapM] in Ee. rewrite Evar in Ee. cbn [bind] in Ee.
      destruct (new_single (Some b) (Some (RText (strip (sv_text s))))) as [w|] eqn:Ew; cbn [bind] in Ee; [|discriminate].
      destruct (Elit _ eq_refl) as (l & -> & Hl). apply fold_value in Ee. exists l.
      destruct (number_stored _ _ _ _ _ _ _ _ _ _ Hwold Hl Ee Ev0 Hr) as (new & -> & Hwf & Hn). exists new. split; [exact Hl|]. split; [reflexivity|]. split; [|exact Hwf].
      destruct Hn as [[Hn1 ->]|(x & y & Hx & Hy & Hn)]; [left; auto|right]. exists x, y. split; [exact Hx|]. split; [exact Hy|].
      destruct Hn as [(p & q & -> & -> & ->)|(_ & ->)].
      + exists (AInt (1 * p * q)). split; [reflexivity|]. left. exists (1 * p * q). split; [reflexivity|]. rewrite <- qz_mul. f_equal. destruct p; reflexivity.
      + exists (AFloat (Qcmult (Qcmult q1 x) y)). split; [reflexivity|]. right. f_equal. rewrite Qcmult_1_l. reflexivity.
    - injection Hm as <-. cbn [so_expr] in Ese. injection Ese as <-. cbn [eval mapM] in Ee. rewrite Evar in Ee. cbn [bind] in Ee.
      destruct (new_single (Some b) (Some (RText (strip (sv_text s))))) as [w|] eqn:Ew; cbn [bind] in Ee; [|discriminate].
      destruct (Elit _ eq_refl) as (l & -> & Hl). exists l.
      destruct (divide_value _ _ _ _ Ee) as [Hnum Hv].
      assert (b = BFloat) as ->.
      { destruct Hnum as [->| ->]; [exfalso|reflexivity]. destruct (set_single _ _ _ _ _ _ Ev0 Hr) as (oa & new & E1 & [E2|E2] & _).
        - destruct Hv as [[_ ->]|(x & y & _ & _ & [[_ ->]|[_ ->]])]; reflexivity.
        - destruct Hv as [[_ ->]|(x & y & _ & _ & [[_ ->]|[_ ->]])]; discriminate E2.
        - destruct Hv as [[_ ->]|(x & y & _ & _ & [[_ ->]|[_ ->]])]; discriminate E2. }
      destruct Hv as [[Hn ->]|(x & y & Hx & Hy & [[Hy0 ->]|[Hy0 ->]])];
        destruct (set_single _ _ _ _ _ _ Ev0 Hr eq_refl) as (oa & new & E1 & _ & -> & Hnew); injection E1 as <-; exists new;
        cbn [option_map] in Hnew.
      + subst new. cbn. auto 10.
      + subst new. split; [exact Hl|]. split; [reflexivity|]. split; [|exact I]. right. exists x, y. auto 6.
      + injection Hnew as <-. split; [exact Hl|]. split; [reflexivity|]. split; [|exact I]. right. exists x, y. split; [exact Hx|]. split; [exact Hy|].
        right. split; [exact Hy0|]. eexists. split; [reflexivity|]. right. reflexivity. }
  destruct Hk as (l & new & Hl & -> & Heff & Hwf). split; [|split; [apply put_wf; assumption|exact Hty]].
  exists b, old, l, new. split; [exact Ev0|]. split; [exact Hl|]. split; [cbn [put s_map]; apply assoc_sset_same|].
  split; [exact Heff|apply put_only].
Qed.


(** Feedback *)
Lemma set_item_ok n w st0 st' : set_item n w st0 = (st', None) -> exists old new, assoc n (s_map st0) = Some old /\
  (card w = None \/ card w = card old) /\ (base w = None \/ base w = base old) /\
  set_value old (payload_of w) = (new, None) /\ st' = put st0 n new.
Proof.
  unfold set_item, lift. destruct (get_var st0 n) as [old|] eqn:Eg; [|discriminate].
  destruct (match card w with None => _ | _ => _ end) eqn:Ec; [discriminate|].
  destruct (match base w with None => _ | _ => _ end) eqn:Eb; [discriminate|].
  destruct (set_value old (payload_of w)) as [new oe] eqn:Es. intros [= <- ->]. exists old, new.
  split; [apply get_var_assoc, Eg|]. split.
  { destruct (card w) as [c|]; [|auto]. apply negb_false_iff in Ec. right. apply opt_card_eqb, Ec. }
  split; [|auto]. destruct (base w) as [c|]; [|auto]. apply negb_false_iff in Eb. right. apply opt_base_eqb, Eb.
Qed.
Lemma multiple_base old b a w : op_multiple [old; VSingle (Some b) (Some a)] = Ok w -> exists m, w = VMultiple (Some b) m.
Proof.
  unfold op_multiple. destruct (gather CMultiple None [] _) as [[bt l]|] eqn:Eg; cbn [bind]; [|discriminate].
  assert (bt = Some b) as ->.
  { cbn [gather base card non_null negb] in Eg. destruct (base old) as [b0|].
    - destruct (negb (non_null old)).
      + destruct (baseType_eqb b0 b) eqn:Eb; cbn [negb] in Eg; [|discriminate]. injection Eg as <- _. reflexivity.
      + destruct (card old) as [[]|]; cbn [cardinality_eqb] in Eg; try discriminate;
          destruct (baseType_eqb b0 b) eqn:Eb; cbn [negb] in Eg; try discriminate; injection Eg as <- _; reflexivity.
    - cbn [negb] in Eg. injection Eg as <- _. reflexivity. }
  unfold set_multiple. destruct (multiple_loop _ _ _) as [vs [e|]]; [destruct vs; discriminate|].
  destruct vs; cbn [finish]; intros [= <-]; eauto.
Qed.
Lemma stored_bag b old m new : wf_value (VMultiple (Some b) m) ->
  set_value (VMultiple (Some b) old) (payload_of (VMultiple (Some b) m)) = (new, None) -> wf_value new.
Proof.
  intros Hm H. destruct m as [l|]; cbn [payload_of set_value] in H; [|injection H as <-; exact I].
  replace (map (fun p : option atom * Z => option_map raw_of (fst p)) l) with (map (option_map raw_of) (map fst l)) in H by (rewrite map_map; reflexivity).
  assert (Hf : Forall (wf_atom b) (somes (map fst l))).
  { clear H. destruct Hm as (_ & _ & Hm). induction Hm as [|[o k] l (_ & a & Ho & Ha) Hl IH]; [constructor|]. cbn in Ho. subst o. cbn. constructor; [exact Ha|exact IH]. }
  rewrite set_multiple_raws in H by exact Hf. injection H as <-. destruct (somes (map fst l)) as [|a0 l0] eqn:E; [exact I|].
  apply bag_value; [apply bag_of_wf; exact Hf|]. intros K. apply bag_of_nil in K. discriminate.
Qed.

Lemma feedback_runs link i' a st' : x_ncname [] = false -> MigrateDisplayFeedback i link = Ok (i', a) ->
  run_set_outcome a st = (st', None) ->
  shows link st st' /\ wf_state st' /\ well_typed st' /\ s_item st' = s_item st.
Proof.
  intros Hx Hm Hr. unfold MigrateDisplayFeedback in Hm.
  match type of Hm with bind ?e _ = _ => destruct e as [i1|]; cbn [bind] in Hm; [|discriminate] end.
  injection Hm as <- <-. set (t := match link with Some s => s | None => [] end) in *.
  destruct (set_outcome_assigned (SetOutcome FEEDBACK (Some (EMultiple [EVariable FEEDBACK; EBaseValue (Some BIdentifier) t]))) _ _ Hw ltac:(intros e He; cbn [so_expr] in He; injection He as <-; cbn; auto) Hr) as (e & v & He & Ev & Has). cbn [so_expr] in He; injection He as <-.
  cbn [so_id] in Has. unfold run_set_outcome in Hr. cbn [so_expr so_id] in Hr. unfold lift at 1 in Hr. rewrite Ev in Hr.
  unfold lift in Hr. destruct (IsOutcome st FEEDBACK) as [[]|]; try discriminate.
  cbn [eval mapM] in Ev. destruct (ev_variable st FEEDBACK) as [v0|] eqn:E0; cbn [bind] in Ev; [|discriminate].
  cbn [new_single parse_single] in Ev. destruct (x_ncname t) eqn:Et; cbn [bind] in Ev; [|discriminate].
  destruct (multiple_base _ _ _ _ Ev) as (m & ->).
  assert (E0' : assoc FEEDBACK (s_map st) = Some v0).
  { unfold ev_variable, get_var in E0. destruct (assoc FEEDBACK (s_map st)); cbn in E0; congruence. }
  pose proof (set_item_typed FEEDBACK (VMultiple (Some BIdentifier) m) st Ht) as Hty. rewrite Hr in Hty. cbn [fst] in Hty.
  destruct (set_item_ok _ _ _ _ Hr) as (old & new & Eo & Hc & Hbs & Hs & ->).
  assert (old = v0) as -> by congruence. destruct Hc as [Hc|Hc]; [discriminate|]. destruct Hbs as [Hbs|Hbs]; [discriminate|].
  destruct v0 as [| | | |bt m0|]; try discriminate Hc. cbn [base] in Hbs. subst bt.
  assert (Hwf : wf_value (VMultiple (Some BIdentifier) m0)) by exact (Hw _ _ E0').
  destruct (op_multiple_ok BIdentifier [VMultiple (Some BIdentifier) m0; VSingle (Some BIdentifier) (Some (AIdent t))]) as (bt & r & Eop & _ & Hwr & Hocc & _).
  { constructor; [exact Hwf|]. constructor; [|constructor]. cbn. exact Et. }
  { constructor; [|constructor; [|constructor]]; right; (split; [reflexivity|]); right; [right|left]; reflexivity. }
  rewrite Eop in Ev. injection Ev as -> ->.
  destruct Has as (old' & new' & Eo' & En' & _ & _ & _ & _ & _ & Hmem & _ & Hit & Hoth).
  cbn [put s_map] in En'. rewrite assoc_sset_same in En'. injection En' as <-.
  split; [|split; [apply put_wf; [exact Hw|]; exact (stored_bag _ _ _ _ Hwr Hs)|exact Hty]].
  split; [|split; [reflexivity|exact Hoth]]. intros id. unfold shown. change (lit "FEEDBACK") with FEEDBACK. rewrite E0'.
  cbn [put s_map]. rewrite assoc_sset_same.
  assert (G : In (AIdent id) (members new) <-> In (AIdent id) (members (VMultiple (Some BIdentifier) m0)) \/ id = t).
  { rewrite Hmem. rewrite (count_occ_In atom_eq_dec). fold (occurs (AIdent id) (VMultiple (Some BIdentifier) m)). rewrite Hocc.
    rewrite <- (count_occ_In atom_eq_dec). cbn [flat_map]. rewrite !in_app_iff. cbn [members In]. split.
    - intros [H|[[H|[]]|[]]]; [auto|]. right. congruence.
    - intros [H|H]; [auto|]. right. left. left. congruence. }
  assert (Hl : link = Some id <-> id = t).
  { subst t. destruct link as [s|]; [split; congruence|]. congruence. }
  rewrite Hl. split.
  - intros (v & [= <-] & Hin). apply G in Hin as [Hin|Hin]; [left; eauto|auto].
  - intros H. eexists. split; [reflexivity|]. apply G. destruct H as [(v & [= <-] & Hin)|H]; auto.
Qed.
End Actions.
