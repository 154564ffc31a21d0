(** Proofs that migrated conditions test what the version 1 conditions tested. *)
From Coq Require Import QArith Qcanon Lia.
From Verif Require Import Py Dec XmlUtils XmlChars Xsd Shapes QtiValue QtiExpr QtiSpec QtiProc QtiProcSpec
  QtiProofs QtiProofs2 QtiProofs3 QtiProofs4 QtiProcProofs QtiProcProofs2 V1Mig V1MigSpec V1MigProofs.
Open Scope Z_scope.
Open Scope list_scope.

Section Ind.
Variable P : v1expr -> Prop.
Hypothesis Heq : forall c i n t, P (VarEqual c i n t).
Hypothesis Hlt : forall o i n t, P (VarInequality o i n t).
Hypothesis Hin : forall a i n t, P (VarInside a i n t).
Hypothesis Hn0 : P (V1Not None).
Hypothesis Hn1 : forall e, P e -> P (V1Not (Some e)).
Hypothesis Hand : forall es, Forall P es -> P (V1And es).
Hypothesis Hor : forall es, Forall P es -> P (V1Or es).
Hypothesis Hoth : P Other.
Hypothesis Huns : P Unsupported.
Fixpoint v1expr_ind2 (e : v1expr) : P e :=
  let all := fix all l : Forall P l := match l with [] => Forall_nil _ | x :: l' => Forall_cons _ (v1expr_ind2 x) (all l') end in
  match e with
  | VarEqual c i n t => Heq c i n t
  | VarInequality o i n t => Hlt o i n t
  | VarInside a i n t => Hin a i n t
  | V1Not None => Hn0
  | V1Not (Some e) => Hn1 e (v1expr_ind2 e)
  | V1And es => Hand es (all es)
  | V1Or es => Hor es (all es)
  | Other => Hoth
  | Unsupported => Huns
  end.
End Ind.

Lemma Forall2_mono {A B} (P Q : A -> B -> Prop) l m : (forall a b, P a b -> Q a b) -> Forall2 P l m -> Forall2 Q l m.
Proof. intros H. induction 1; constructor; auto. Qed.
Lemma lmapM_inv {A B} (f : A -> logged B) es : forall es' w, lmapM f es = Ok (es', w) ->
  Forall2 (fun e e' => exists w1, f e = Ok (e', w1) /\ incl w1 w) es es'.
Proof.
  induction es as [|e es IH]; intros es' w H; cbn [lmapM] in H.
  - injection H as <- <-. constructor.
  - unfold lbind, say in H. destruct (f e) as [[e1 w1]|] eqn:E1; cbn [bind] in H; [|discriminate].
    destruct (lmapM f es) as [[es1 w2]|] eqn:E2; cbn [bind lret] in H; [|discriminate].
    injection H as <- <-. constructor.
    + exists w1. split; [exact E1|]. intros x Hx. apply in_or_app. auto.
    + eapply Forall2_mono; [|apply (IH _ _ eq_refl)]. cbn. intros a b (w3 & Ha & Hi). exists w3. split; [exact Ha|].
      intros x Hx. apply in_or_app. right. apply in_or_app. left. apply Hi, Hx.
Qed.
Lemma mapM_inv {A B} (f : A -> result B) l : forall vs, mapM f l = Ok vs -> Forall2 (fun x v => f x = Ok v) l vs.
Proof.
  induction l as [|x l IH]; intros vs H; cbn [mapM] in H.
  - injection H as <-. constructor.
  - destruct (f x) as [v|] eqn:E; cbn [bind] in H; [|discriminate].
    fold (mapM f) in H. destruct (mapM f l) as [vs1|] eqn:E1; cbn [bind] in H; [|discriminate].
    injection H as <-. constructor; auto.
Qed.

(** ** Three-valued conjunction and disjunction *)
Lemma and_loop_cases vs obs : Forall2 bool_operand vs obs -> forall res, res = Some true \/ res = None ->
  match and_loop res vs with
  | Some true => res = Some true /\ Forall (fun o => o = Some true) obs
  | Some false => Exists (fun o => o = Some false) obs
  | None => res = None \/ Exists (fun o => o = None) obs
  end.
Proof.
  induction 1 as [|v ob vs obs Hv H IH]; intros res Hr; cbn [and_loop].
  - destruct Hr as [->| ->]; auto.
  - rewrite (bool_operand_of _ _ Hv). destruct ob as [[]|].
    + specialize (IH res Hr). destruct (and_loop res vs) as [[]|].
      * destruct IH as [-> IH]. auto.
      * auto.
      * destruct IH; auto.
    + constructor. reflexivity.
    + specialize (IH None (or_intror eq_refl)). destruct (and_loop None vs) as [[]|].
      * destruct IH as [IH _]. discriminate.
      * auto.
      * right. constructor. reflexivity.
Qed.
Lemma or_loop_cases vs obs : Forall2 bool_operand vs obs -> forall res, res = Some false \/ res = None ->
  match or_loop res vs with
  | Some true => Exists (fun o => o = Some true) obs
  | Some false => res = Some false /\ Forall (fun o => o = Some false) obs
  | None => (res = None \/ Exists (fun o => o = None) obs) /\ Forall (fun o => o <> Some true) obs
  end.
Proof.
  induction 1 as [|v ob vs obs Hv H IH]; intros res Hr; cbn [or_loop].
  - destruct Hr as [->| ->]; auto.
  - rewrite (bool_operand_of _ _ Hv). destruct ob as [[]|].
    + constructor. reflexivity.
    + specialize (IH res Hr). destruct (or_loop res vs) as [[]|].
      * auto.
      * destruct IH as [-> IH]. auto.
      * destruct IH as [[IH|IH] G]; (split; [auto|]); constructor; auto; discriminate.
    + specialize (IH None (or_intror eq_refl)). destruct (or_loop None vs) as [[]|].
      * auto.
      * destruct IH as [IH _]. discriminate.
      * destruct IH as [_ G]. split; [right; constructor; reflexivity|]. constructor; [discriminate|exact G].
Qed.

Section Conditions.
Context {X : Ext}.

(** The session has the declared types *)
Definition typed (st : state) : Prop := forall n d, assoc n (i_decls (s_item st)) = Some d ->
  exists v, assoc n (s_map st) = Some v /\ card v = d_card d /\ base v = match d_card d with Some CRecord => None | _ => d_base d end.
(** The declarations known to the migration are those of the session *)
Definition declares (i : item) (st : state) : Prop := forall n d, find_decl i n = Some d -> assoc n (i_decls (s_item st)) = Some d.

Definition verdict (H ans : Prop) (ob : option bool) : Prop :=
  match ob with Some true => H | Some false => ~ H | None => ~ H /\ ~ ans end.

Lemma literal_value d text v st : eval st (MigrateV2Value d text) = Ok v ->
  match d_base d with
  | None => v = VSingle None None
  | Some b => exists oa, v = VSingle (Some b) oa /\ parse_single b (RText (written b text)) = Ok oa
  end.
Proof.
  unfold MigrateV2Value. intros H. destruct (d_base d) as [b|]; cbn [eval] in H.
  - destruct b; cbn [new_single written] in *; try discriminate;
      match type of H with bind ?e _ = _ => destruct e as [oa|] eqn:E; cbn [bind] in H; [|discriminate] end;
      injection H as <-; exists oa; auto.
  - injection H as <-. reflexivity.
Qed.
Lemma parse_null b t : parse_single b (RText t) = Ok None -> b = BString /\ t = [].
Proof.
  destruct b; cbn [parse_single]; try discriminate.
  - unfold DecodeBoolean. repeat (match goal with |- context [if ?c then _ else _] => destruct c end; cbn; try discriminate).
  - destruct (pair_of _ _) as [[]|]; discriminate.
  - destruct (x_double t); discriminate.
  - destruct (x_double t); discriminate.
  - destruct (x_ncname t); discriminate.
  - destruct (DecodeInteger t); discriminate.
  - destruct (pair_of _ _) as [[]|]; discriminate.
  - destruct (Xsd.map_result DecodeInteger (split_ws t)) as [l|]; cbn [bind]; [|discriminate]. destruct (point_of l); discriminate.
  - destruct t; [auto|discriminate].
Qed.
Lemma parse_class b t a : parse_single b (RText t) = Ok (Some a) ->
  match b, a with
  | BString, AStr s => s = t | BString, _ => False
  | BInteger, AInt _ => True | BInteger, _ => False
  | BFloat, AFloat _ => True | BFloat, _ => False
  | _, AStr _ => False
  | _, _ => True
  end.
Proof.
  destruct b; cbn [parse_single]; try discriminate.
  - unfold DecodeBoolean. repeat (match goal with |- context [if ?c then _ else _] => destruct c end; cbn; try discriminate);
      intros [= <-]; exact I.
  - destruct (pair_of _ _) as [[]|]; cbn; [|discriminate]. intros [= <-]. exact I.
  - destruct (x_double t); cbn; [|discriminate]. intros [= <-]. exact I.
  - destruct (x_double t); cbn; [|discriminate]. intros [= <-]. exact I.
  - destruct (x_ncname t); [|discriminate]. intros [= <-]. exact I.
  - destruct (DecodeInteger t); cbn; [|discriminate]. intros [= <-]. exact I.
  - destruct (pair_of _ _) as [[p q]|]; cbn; [|discriminate]. intros [= <-]. unfold sorted_pair. destruct (str_ltb q p); exact I.
  - destruct (Xsd.map_result DecodeInteger (split_ws t)) as [l|]; cbn [bind]; [|discriminate]. unfold point_of. destruct l as [|? [|? [|]]]; try discriminate.
    destruct (in_range _ && in_range _); cbn; [|discriminate]. intros [= <-]. exact I.
  - destruct t; [discriminate|]. intros [= <-]. reflexivity.
Qed.

(** The value of the variable *)
Lemma variable_value st d index v w : wf_state st -> typed st ->
  MigrateV2Variable d index = Ok w -> Forall harmless (snd w) ->
  assoc (d_id d) (i_decls (s_item st)) = Some d ->
  eval st (fst w) = Ok v ->
  exists v0, assoc (d_id d) (s_map st) = Some v0 /\ wf_value v0 /\
    card v0 = d_card d /\ base v0 = match d_card d with Some CRecord => None | _ => d_base d end /\
    (v = v0 /\ (index = None \/ index = Some 0) \/
     exists bt l n, v0 = VOrdered bt l /\ index = Some n /\ n <> 0 /\
       v = VSingle bt (match l with None => None | Some _ => nth_error (members v0) (Z.to_nat (n - 1)) end)).
Proof.
  intros Hw Ht Hm Hh Hd Hv. destruct (Ht _ _ Hd) as (v0 & Ev & Hc & Hb). exists v0.
  split; [exact Ev|]. split; [eapply Hw; exact Ev|]. split; [exact Hc|]. split; [exact Hb|].
  assert (Evar : forall v, eval st (EVariable (d_id d)) = Ok v -> v = v0).
  { intros v' H. cbn [eval] in H. unfold ev_variable, get_var in H. rewrite Ev in H. cbn in H. congruence. }
  unfold MigrateV2Variable in Hm. destruct index as [n|].
  2:{ injection Hm as <-. cbn [fst] in Hv. left. auto. }
  destruct (n =? 0) eqn:En.
  { injection Hm as <-. cbn [fst] in Hv. left. split; [apply Evar, Hv|]. right. f_equal. lia. }
  assert (Hx : exists e, w = (EIndex (Some n) e, []) /\ e = EVariable (d_id d)).
  { destruct (d_card d) as [[]|]; injection Hm as <-; try (eexists; split; reflexivity).
    - inversion Hh as [|? ? [K|[K|K]]]; discriminate.
    - inversion Hh as [|? ? [K|[K|K]]]; discriminate. }
  destruct Hx as (e & -> & ->). cbn [fst eval] in Hv. unfold ev_variable, get_var in Hv. rewrite Ev in Hv. cbn [catch_key bind] in Hv.
  right. destruct v0 as [| |bt oa|bt l|bt m|m]; cbn [op_index] in Hv; try discriminate.
  pose proof (Hw _ _ Ev) as Hwf. destruct l as [l|].
  - destruct bt as [b|]; [|cbn in Hwf; contradiction].
    destruct (Z_lt_dec n 1) as [L|L].
    + exfalso. destruct (new_single (Some b) None); cbn [bind] in Hv; [|discriminate]. replace (n <? 1) with true in Hv by lia. discriminate.
    + pose proof (op_index_ok b l n Hwf ltac:(lia)) as E. cbn [op_index] in E. rewrite E in Hv. injection Hv as <-.
      exists (Some b), (Some l), n. repeat split. lia.
  - destruct (new_single bt None) as [r|] eqn:E; cbn [bind] in Hv; [|discriminate].
    exists bt, None, n. apply new_single_none_wf in E. repeat split; [lia|congruence].
Qed.

Section Leaf.
Variables (i : item) (st : state).
Hypothesis Hw : wf_state st.
Hypothesis Ht : typed st.
Hypothesis Hi : declares i st.

Lemma find_declared n d : find_decl i n = Some d -> d_id d = n /\ assoc n (i_decls (s_item st)) = Some d.
Proof.
  intros H. pose proof (Hi _ _ H) as H1. split; [|exact H1].
  exact (proj1 (declared _ _ _ H1)).
Qed.
Lemma answers_of id d v0 : d_id d = v2id id -> assoc (d_id d) (s_map st) = Some v0 -> answers st id = members v0.
Proof. intros E H. unfold answers. rewrite <- E, H. reflexivity. Qed.
Lemma answer_type_of id d b : assoc (v2id id) (i_decls (s_item st)) = Some d -> answer_type st id b <-> d_base d = Some b.
Proof.
  intros H. unfold answer_type. rewrite H. split.
  - intros (d' & [= <-] & E). exact E.
  - intros E. exists d. auto.
Qed.

(** What a comparison of the selected answers with a parsed text means *)
Lemma holds_equal other id d b case index text oa : assoc (v2id id) (i_decls (s_item st)) = Some d -> d_base d = Some b ->
  parse_single b (RText (written b text)) = Ok oa ->
  holds other st (VarEqual case id index text) <->
  exists a a', In a (selected st id index) /\ oa = Some a' /\
    (a = a' \/ case = false /\ exists s s', a = AStr s /\ a' = AStr s' /\ x_lower s = x_lower s').
Proof.
  intros Hd Hb Hp. cbn [holds]. split.
  - intros (b' & a & Ht' & Hin & a' & Hden & He). apply (answer_type_of _ _ _ Hd) in Ht'. assert (b' = b) by congruence. subst b'.
    unfold denotes in Hden. rewrite Hp in Hden. injection Hden as ->. exists a, a'. auto.
  - intros (a & a' & Hin & -> & He). exists b, a. split; [apply (answer_type_of _ _ _ Hd); exact Hb|]. split; [exact Hin|].
    exists a'. auto.
Qed.

Definition answer_ok (id : str) (index : option Z) (text : str) : Prop := answered st id index text.

Lemma null_verdict other id d b case index text oa : assoc (v2id id) (i_decls (s_item st)) = Some d -> d_base d = Some b ->
  parse_single b (RText (written b text)) = Ok oa -> selected st id index = [] \/ oa = None ->
  verdict (holds other st (VarEqual case id index text)) (answered st id index text) None.
Proof.
  intros Hd Hb Hp Hn. split.
  - intros H. apply (holds_equal _ _ _ _ _ _ _ _ Hd Hb Hp) in H as (a & a' & Hin & -> & _).
    destruct Hn as [Hn|Hn]; [rewrite Hn in Hin; destruct Hin|discriminate].
  - intros [H1 H2]. destruct Hn as [Hn|Hn]; [contradiction|]. subst oa. apply parse_null in Hp as [-> Hp]. cbn in Hp. contradiction.
Qed.
Lemma notype_verdict other id d case index text : assoc (v2id id) (i_decls (s_item st)) = Some d -> d_base d = None ->
  selected st id index = [] ->
  verdict (holds other st (VarEqual case id index text)) (answered st id index text) None.
Proof.
  intros Hd Hb Hs. split.
  - cbn [holds]. intros (b & a & Ht' & _). apply (answer_type_of _ _ _ Hd) in Ht'. congruence.
  - intros [H _]. contradiction.
Qed.

Lemma boolean_op ob : bool_operand (mkbool ob) ob. Proof. left. reflexivity. Qed.
Ltac ob_is b := exists b; split; [apply boolean_op|].

Lemma selected_all id index : index = None \/ index = Some 0 -> selected st id index = answers st id.
Proof. intros [->| ->]; reflexivity. Qed.

(** String comparison, up to case *)
Lemma lower_eqb (case : bool) s t : str_eqb (if case then s else x_lower s) (if case then t else x_lower t) = true <->
  s = t \/ case = false /\ x_lower s = x_lower t.
Proof.
  rewrite str_eqb_eq. destruct case; split; intros H.
  - auto.
  - destruct H as [H|[H _]]; [exact H|discriminate].
  - auto.
  - destruct H as [->|[_ H]]; auto.
Qed.

Lemma equal_leaf other case id index text e w v :
  MigrateVarEqual i case id index text = Ok (e, w) -> Forall harmless w -> eval st e = Ok v ->
  exists ob, bool_operand v ob /\
    verdict (holds other st (VarEqual case id index text)) (answered st id index text) ob.
Proof.
  intros Hm Hh Hv. unfold MigrateVarEqual in Hm. destruct (find_decl i (v2id id)) as [d|] eqn:Ed.
  2:{ injection Hm as <- <-. inversion Hh as [|? ? [K|[K|K]]]; discriminate. }
  destruct (find_declared _ _ Ed) as [Eid Hd].
  assert (Hsplit : exists mk w0 var wv, MigrateV2Variable d index = Ok (var, wv) /\ w = w0 ++ wv /\
    ((d_card d = Some CSingle /\ e = mk [var; MigrateV2Value d text] /\
      ((d_base d = Some BIdentifier \/ d_base d = Some BPair) /\ mk = EMatch /\ w0 = (if case then [] else [WCase]) \/
       d_base d = Some BInteger /\ mk = EMatch \/
       d_base d = Some BString /\ mk = EStringMatch case false \/
       d_base d = Some BFloat /\ mk = EEqual TExact [] true true)) \/
     (d_card d <> Some CSingle /\ e = EMember [MigrateV2Value d text; var] /\ w0 = (if case then [] else [WCase])))).
  { assert (F : forall (mk : list expr -> expr) w0, say w0 (lbind (MigrateV2Variable d index) (fun var => lret (mk [var; MigrateV2Value d text]))) = Ok (e, w) ->
      exists var wv, MigrateV2Variable d index = Ok (var, wv) /\ w = w0 ++ wv /\ e = mk [var; MigrateV2Value d text]).
    { intros mk w0. unfold say, lbind. destruct (MigrateV2Variable d index) as [[var wv]|]; cbn [bind say lret]; [|discriminate].
      intros [= <- <-]. exists var, wv. rewrite app_nil_r. auto. }
    assert (F2 : forall w0, say w0 (lbind (MigrateV2Variable d index) (fun var => lret (EMember [MigrateV2Value d text; var]))) = Ok (e, w) ->
      exists var wv, MigrateV2Variable d index = Ok (var, wv) /\ w = w0 ++ wv /\ e = EMember [MigrateV2Value d text; var]).
    { intros w0. unfold say, lbind. destruct (MigrateV2Variable d index) as [[var wv]|]; cbn [bind say lret]; [|discriminate].
      intros [= <- <-]. exists var, wv. rewrite app_nil_r. auto. }
    destruct (d_card d) as [[]|] eqn:Ec.
    4:{ destruct (d_base d) as [[]|] eqn:Eb; cbn [bind] in Hm; try discriminate;
        apply F in Hm as (var & wv & H1 & H2 & H3); eexists _, _, var, wv; (split; [exact H1|]; split; [exact H2|]);
        left; (split; [reflexivity|]); (split; [exact H3|]); tauto. }
    all: apply F2 in Hm as (var & wv & H1 & H2 & H3); exists EMember; eexists _, var, wv; (split; [exact H1|]; split; [exact H2|]);
        right; (split; [discriminate|]); auto. }
  clear Hm. destruct Hsplit as (mk & w0 & var & wv & Hvar & -> & Hcases).
  apply Forall_app in Hh as [Hh0 Hhv].
  assert (Hcase : w0 = (if case then [] else [WCase]) -> case = true).
  { intros ->. destruct case; [reflexivity|]. inversion Hh0 as [|? ? [K|[K|K]]]; discriminate. }
  assert (Hd' : assoc (d_id d) (i_decls (s_item st)) = Some d) by (rewrite Eid; exact Hd).
  destruct Hcases as [(Hc & -> & Hk)|(Hc & -> & Hk)].
  - (* single *)
    assert (Hev : exists v1 v2, eval st var = Ok v1 /\ eval st (MigrateV2Value d text) = Ok v2 /\ 
       match mk [] with EMatch _ => op_match [v1; v2] | EStringMatch _ _ _ => op_string_match case false [v1; v2] | _ => op_equal TExact [] true true [v1; v2] end = Ok v).
    { destruct Hk as [(_ & -> & _)|[(_ & ->)|[(_ & ->)|(_ & ->)]]]; cbn [eval mapM] in Hv;
        (destruct (eval st var) as [v1|] eqn:E1; cbn [bind] in Hv; [|discriminate]);
        (destruct (eval st (MigrateV2Value d text)) as [v2|] eqn:E2; cbn [bind] in Hv; [|discriminate]);
        exists v1, v2; auto. }
    destruct Hev as (v1 & v2 & E1 & E2 & Hop).
    destruct (variable_value st d index v1 _ Hw Ht Hvar Hhv Hd' E1) as (v0 & Ev0 & Hwf & Hcv & Hbv & Hsel).
    destruct Hsel as [[-> Hix]|(b & l & n & -> & _)]; [|cbn in Hcv; congruence].
    apply literal_value in E2. rewrite Hc in Hbv.
    pose proof (answers_of id d v0 Eid Ev0) as Hans. pose proof (selected_all id index Hix) as Hsa. rewrite Hans in Hsa.
    destruct v0 as [| |bt oa| | |]; cbn in Hcv; try congruence. cbn [base] in Hbv. subst bt.
    destruct (d_base d) as [b|] eqn:Eb; [|intuition discriminate].
    destruct E2 as (oa' & -> & Hp).
    assert (Hnull : oa = None \/ oa' = None -> verdict (holds other st (VarEqual case id index text)) (answered st id index text) None).
    { intros Hn. eapply null_verdict; try eassumption. rewrite Hsa. destruct Hn as [->| ->]; auto. }
    assert (Hhold : forall a a', oa = Some a -> oa' = Some a' -> forall r : bool,
      (r = true <-> (a = a' \/ case = false /\ exists s s', a = AStr s /\ a' = AStr s' /\ x_lower s = x_lower s')) ->
      verdict (holds other st (VarEqual case id index text)) (answered st id index text) (Some r)).
    { intros a a' -> -> r Hr. pose proof (holds_equal other id d b case index text (Some a') Hd Eb Hp) as Hq.
      rewrite Hsa in Hq. cbn [members] in Hq. destruct r; cbn [verdict].
      - apply Hq. exists a, a'. split; [left; reflexivity|]. split; [reflexivity|]. apply Hr. reflexivity.
      - intros H. apply Hq in H as (a1 & a2 & [<-|[]] & [= <-] & H). apply Hr in H. discriminate. }
    assert (Hmatch : mk = EMatch -> b <> BString -> b <> BDuration -> (case = true \/ b = BInteger) -> exists ob, bool_operand v ob /\
      verdict (holds other st (VarEqual case id index text)) (answered st id index text) ob).
    { intros -> Hns Hnd Hcs. cbn in Hop. unfold op_match, value_eq in Hop. cbn [two bind card base] in Hop.
      cbn [CheckCardinalities check_cards cardinality_eqb bind] in Hop.
      unfold CheckBaseTypes in Hop. cbn [check_bases] in Hop. rewrite baseType_eqb_refl in Hop. cbn [bind opt_eqb] in Hop.
      destruct (baseType_eqb b BDuration) eqn:Ebd; [apply baseType_eqb_eq in Ebd; contradiction|].
      destruct oa as [a|], oa' as [a'|]; cbn in Hop; injection Hop as <-.
      - ob_is (Some (atom_eqb a a')). eapply Hhold; try reflexivity. rewrite atom_eqb_eq. split; [auto|].
        intros [H|(Hcf & s & s' & -> & -> & Hl)]; [exact H|]. destruct Hcs as [->| ->]; [discriminate|].
        apply parse_class in Hp. destruct Hp.
      - ob_is (@None bool). auto.
      - ob_is (@None bool). auto.
      - ob_is (@None bool). auto. }
    destruct Hk as [(Hb & -> & Hw0)|[(Hb & ->)|[(Hb & ->)|(Hb & ->)]]].
    + apply Hmatch; try reflexivity; try (left; auto); intros ->; destruct Hb; discriminate.
    + injection Hb as ->. apply Hmatch; auto; discriminate.
    + injection Hb as ->. cbn in Hop. unfold op_string_match in Hop. cbn in Hop.
      destruct oa as [a|], oa' as [a'|]; cbn in Hop.
      * cbn in Hwf. destruct a as [?|? ?|qa|?|?|? ?|? ?|sa]; try contradiction. pose proof (parse_class _ _ _ Hp) as Hcl. destruct a' as [?|? ?|qb|?|?|? ?|? ?|sb]; try contradiction.
        cbn in Hop. injection Hop as <-. ob_is (Some (str_eqb (if case then sa else x_lower sa) (if case then sb else x_lower sb))).
        eapply Hhold; try reflexivity. rewrite lower_eqb. split.
        -- intros [->|[H1 H2]]; [auto|]. right. split; [exact H1|]. exists sa, sb. auto.
        -- intros [[= ->]|(H1 & s1 & s2 & [= ->] & [= ->] & H2)]; auto.
      * injection Hop as <-. ob_is (@None bool). auto.
      * injection Hop as <-. ob_is (@None bool). auto.
      * injection Hop as <-. ob_is (@None bool). auto.
    + injection Hb as ->. cbn in Hop. unfold op_equal, two_numbers in Hop. cbn in Hop.
      destruct oa as [a|], oa' as [a'|]; cbn in Hop.
      * cbn in Hwf. destruct a as [?|? ?|qa|?|?|? ?|? ?|sa]; try contradiction. pose proof (parse_class _ _ _ Hp) as Hcl. destruct a' as [?|? ?|qb|?|?|? ?|? ?|sb]; try contradiction.
        cbn in Hop. injection Hop as <-. ob_is (Some (qc_eqb qa qb)).
        eapply Hhold; try reflexivity. rewrite qc_eqb_eq. split; [intros ->; auto|].
        intros [[= ->]|(_ & s1 & s2 & H & _)]; [reflexivity|discriminate].
      * injection Hop as <-. ob_is (@None bool). auto.
      * injection Hop as <-. ob_is (@None bool). auto.
      * injection Hop as <-. ob_is (@None bool). auto.
  - (* container *)
    specialize (Hcase Hk). subst case. cbn [eval mapM] in Hv.
    destruct (eval st (MigrateV2Value d text)) as [v2|] eqn:E2; cbn [bind] in Hv; [|discriminate].
    destruct (eval st var) as [v1|] eqn:E1; cbn [bind] in Hv; [|discriminate].
    destruct (variable_value st d index v1 _ Hw Ht Hvar Hhv Hd' E1) as (v0 & Ev0 & Hwf & Hcv & Hbv & Hsel).
    apply literal_value in E2. pose proof (answers_of id d v0 Eid Ev0) as Hans.
    destruct (d_base d) as [b|] eqn:Eb.
    2:{ (* no base type *) subst v2. cbn in Hv. injection Hv as <-. ob_is (@None bool).
        eapply notype_verdict; try eassumption. unfold selected. rewrite Hans.
        assert (Hm0 : members v0 = []).
        { assert (base v0 = None) by (rewrite Hbv; destruct (d_card d) as [[]|]; reflexivity).
          destruct v0 as [|bt|bt [a|]|bt [l|]|bt [m|]|[l|]]; cbn in H |- *; try reflexivity; subst bt; destruct Hwf. }
        rewrite Hm0. destruct index as [n|]; [|reflexivity]. destruct (n =? 0); [reflexivity|].
        destruct (Z.to_nat (n - 1)); reflexivity. }
    destruct E2 as (oa' & -> & Hp).
    assert (Hnull : selected st id index = [] \/ oa' = None -> verdict (holds other st (VarEqual true id index text)) (answered st id index text) None).
    { intros Hn. eapply null_verdict; eassumption. }
    destruct Hsel as [[-> Hix]|(bt & l & n & -> & -> & Hn0 & ->)].
    + pose proof (selected_all id index Hix) as Hsa. rewrite Hans in Hsa.
      destruct (base v0) as [b0|] eqn:Eb0.
      2:{ unfold op_member in Hv. cbn [two bind base] in Hv. rewrite Eb0 in Hv. injection Hv as <-. ob_is (@None bool). apply Hnull. left. rewrite Hsa.
          destruct v0 as [|bt|bt [a|]|bt [l|]|bt [m|]|[l|]]; cbn in Eb0 |- *; try reflexivity; subst bt; destruct Hwf. }
      assert (b0 = b) by (destruct (d_card d) as [[]|]; congruence). subst b0.
      destruct (baseType_eqb b BDuration) eqn:Ebd.
      { unfold op_member in Hv. cbn [two bind base] in Hv. rewrite Eb0, baseType_eqb_refl, Ebd in Hv. discriminate. }
      assert (Hnd : b <> BDuration) by (intros ->; discriminate).
      destruct oa' as [a'|].
      * destruct (non_null v0) eqn:En.
        -- assert (Hcc : card v0 = Some COrdered \/ card v0 = Some CMultiple).
           { destruct v0 as [|bt|bt [a|]|bt [l|]|bt [m|]|[l|]]; cbn in *; try discriminate; auto. congruence. }
           destruct (op_member_ok b a' v0 Hwf Eb0 Hnd Hcc En) as (r & Er & Hr). rewrite Er in Hv. injection Hv as <-.
           exists (Some r). split; [apply boolean_op|].
           pose proof (holds_equal other id d b true index text (Some a') Hd Eb Hp) as Hq. rewrite Hsa in Hq.
           destruct r; cbn [verdict].
           ++ apply Hq. exists a', a'. split; [apply Hr; reflexivity|]. auto.
           ++ intros H. apply Hq in H as (a & a2 & Hin & [= <-] & [->|[K _]]); [|discriminate]. apply Hr in Hin. discriminate.
        -- unfold op_member in Hv. cbn [two bind base] in Hv. rewrite Eb0, baseType_eqb_refl, Ebd in Hv. cbn [negb non_null andb] in Hv.
           rewrite En in Hv. injection Hv as <-. ob_is (@None bool). apply Hnull. left. rewrite Hsa.
           apply non_null_members in En; [exact En|exact Hwf|]. intros K. rewrite (Hcv) in K. rewrite K in Hbv. congruence.
      * unfold op_member in Hv. cbn [two bind base] in Hv. rewrite Eb0, baseType_eqb_refl, Ebd in Hv. cbn [negb non_null andb] in Hv.
        injection Hv as <-. ob_is (@None bool). apply Hnull. auto.
    + cbn in Hcv, Hbv. rewrite <- Hcv in Hbv. cbn in Hbv. subst bt.
      assert (Hs : selected st id (Some n) = match (match l with None => None | Some _ => nth_error (members (VOrdered (Some b) l)) (Z.to_nat (n - 1)) end)
                     with Some a => [a] | None => [] end).
      { unfold selected. rewrite Hans. destruct (n =? 0) eqn:En; [lia|]. destruct l as [l|]; [reflexivity|]. cbn [members].
        destruct (Z.to_nat (n - 1)); reflexivity. }
      destruct (match l with None => None | Some _ => nth_error (members (VOrdered (Some b) l)) (Z.to_nat (n - 1)) end) as [a|] eqn:Ea.
      * unfold op_member in Hv. cbn [two bind base] in Hv. rewrite baseType_eqb_refl in Hv. cbn [negb] in Hv.
        destruct (baseType_eqb b BDuration); [discriminate|]. destruct oa' as [a'|]; cbn in Hv; [discriminate|].
        injection Hv as <-. ob_is (@None bool). apply Hnull. auto.
      * unfold op_member in Hv. cbn [two bind base] in Hv. rewrite baseType_eqb_refl in Hv. cbn [negb] in Hv.
        destruct (baseType_eqb b BDuration); [discriminate|]. destruct oa' as [a'|]; cbn in Hv; injection Hv as <-;
          ob_is (@None bool); apply Hnull; auto.
Qed.
End Leaf.
End Conditions.
