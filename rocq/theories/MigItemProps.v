(** Properties of QTIMigration/lib/imsqtiv1.py: C131 to C135. *)
From Coq Require Import Lia QArith Qcanon.
From Verif Require Import Py Iso Dec XmlUtils XmlChars Xsd XsdSpec XsdProofs XsdProofs2 Shapes QtiValue QtiExpr QtiSpec QtiProc QtiProcSpec
  QtiProofs QtiProofs2 QtiProofs3 QtiProofs4 QtiProofs5 QtiProps QtiProcProofs QtiProcProofs2 QtiProcProps V1Mig V1MigSpec V1MigProofs V1MigProofs2 V1MigProofs4 V1MigProofs5 V1MigProofs6 V1MigProofs8
  MigWrite MigItem MigItemSpec MigItemProofs MigItemProofs2 MigItemProofs3 MigItemProofs4 MigItemProofs5 MigItemProofs6 MigItemProofs7 MigItemProofs8.
Open Scope Z_scope.
Open Scope list_scope.

(** C131: every response and outcome is declared under a name of its own, with its type and
    default.  Missing from the full property: the whole of a split response. *)
Theorem C131_names_partial uc sf rs ps p s' : ConvertItem with_validate uc sf rs (ps ++ [p]) = Ok s' ->
  exists R O, named uc rs p R O (declared s').
Proof.
  intros H. destruct (converts uc sf rs ps p s' H) as (s1 & s & C & ->). eexists _, _. exact (named_of uc rs ps p s1 s C).
Qed.
Print Assumptions C131_names_partial.

(** C132: an item is converted if its responses and its outcomes have different identifiers,
    there are at most 99 of them and its tests are [acceptable]. *)
Theorem C132_converts_partial uc sf rs ps : NoDup (flat_map response_ids rs) -> (length (flat_map response_ids rs) <= 99)%nat ->
  (forall p, In p ps -> (length (flat_map response_ids rs) + length (nodup str_eq_dec (outcome_ids uc p)) <= 99)%nat /\
     NoDup (map (decvar_id uc) (rp_decvars p)) /\ forall c, In c (rp_conditions p) -> Forall (acceptable rs) (rc_tests c)) ->
  exists s, ConvertItem with_validate uc sf rs ps = Ok s.
Proof. apply conversion_total. Qed.
Print Assumptions C132_converts_partial.
(** At this commit the function that repairs identifiers does not exist: no item with a response
    is converted. *)
Theorem C132_identifier_refuted uc sf r rs ps : ConvertItem no_validate uc sf (r :: rs) ps = Err AttributeError.
Proof. reflexivity. Qed.
Print Assumptions C132_identifier_refuted.
(** Two identifiers that differ in a full stop and an underscore *)
Theorem C132_full_stop_refuted : exists r1 r2, r_ident r1 <> r_ident r2 /\
  ValidateIdentifier (r_ident r1) (lit "RESPONSE_") = r_ident r1 /\ ValidateIdentifier (r_ident r2) (lit "RESPONSE_") = r_ident r2 /\
  forall uc sf ps, ConvertItem with_validate uc sf [r1; r2] ps = Err NameError.
Proof.
  exists (mkResponse (lit "a.b") (lit "single") (lit "float") None 0), (mkResponse (lit "a_b") (lit "single") (lit "float") None 0).
  split; [discriminate|]. split; [vm_compute; reflexivity|]. split; [vm_compute; reflexivity|]. intros uc sf ps. vm_compute. reflexivity.
Qed.
Print Assumptions C132_full_stop_refuted.

(** C133: the rules use declared variables only, and set declared outcomes only.  Missing from
    the full property: split responses, feedback shown by more than one resprocessing. *)
Theorem C133_closed_partial uc sf rs ps p s' : ConvertItem with_validate uc sf rs (ps ++ [p]) = Ok s' ->
  (forall r, In r rs -> r_split r = 0%nat) -> (forall q, In q ps -> no_feedback q) ->
  exists l, rules s' = Some l /\ Forall (closed (declared s')) l.
Proof. apply rules_closed. Qed.
Print Assumptions C133_closed_partial.

(** C134 and C135: run in a session, the rules of a converted item perform the version 1 response
    processing, under the new names, and then bring the outcomes within their bounds; they raise no
    exception.  Missing from the full property: tests that are not [faithful], bounds that are not
    [keepable], negated tests of responses that were not answered, other after a condition that
    continues, and feedback shown by an earlier resprocessing. *)
Theorem C134_meaning_partial {X : Ext} uc sf rs ps p s' : ConvertItem with_validate uc sf rs (ps ++ [p]) = Ok s' ->
  Forall typed_response rs -> Forall known_decvar (rp_decvars p) -> Forall (keepable sf) (rp_decvars p) ->
  Forall (faithful_condition rs) (rp_conditions p) -> (forall q, In q ps -> no_feedback q) -> x_ncname [] = false ->
  exists R O rules' l, named uc rs p R O (declared s') /\ rules s' = Some rules' /\ reads_rules rules' = Some l /\
  (forall st st', wf_state st -> well_typed st -> declares (reads_item s') st ->
    (forall c, In (RespCondition c) (v1_program uc rs R O p) -> Forall (under_not (answered_response st)) (V1Mig.rc_condition c)) ->
    other_last (v1_program uc rs R O p) -> ResponseProcessing l st = (st', None) ->
    exists st1, v1_run false (v1_program uc rs R O p) st st1 /\ bounded uc p O st1 st') /\
  (forall st, wf_state st -> well_typed st -> declares (reads_item s') st ->
    (forall c, In (RespCondition c) (v1_program uc rs R O p) -> performable st c) ->
    exists st', ResponseProcessing l st = (st', None)).
Proof.
  intros H1 H2 H3 H4 H5 H6 H7. destruct (conversion_means uc sf rs ps p s' H1 H2 H3 H4 H5 H6 H7) as (R & O & rules' & l & K1 & K2 & K3 & K4 & K5).
  exists R, O, rules', l. split; [exact K1|]. split; [exact K2|]. split; [exact K3|]. split; [|exact K5].
  intros st st' L1 L2 L3 L4 L5 L6. destruct (K4 st st' L1 L2 L3 L4 L5 L6) as (st1 & M1 & M2 & _). eauto.
Qed.
Print Assumptions C134_meaning_partial.

(** C135: afterwards every outcome is NULL or within its bounds. *)
Lemma limited_low lo hi x : (forall m, hi = Some m -> lo <= m)%Qc -> (lo <= limited (Some lo) hi x)%Qc.
Proof.
  intros H. unfold limited. destruct (Qclt_le_dec x lo) as [L|L]; destruct hi as [m|]; try apply Qcle_refl; try exact L.
  - destruct (Qclt_le_dec m lo); [apply H; reflexivity|apply Qcle_refl].
  - destruct (Qclt_le_dec m x); [apply H; reflexivity|exact L].
Qed.
Lemma limited_high lo hi x : (limited lo (Some hi) x <= hi)%Qc.
Proof. unfold limited. destruct (Qclt_le_dec hi _); [apply Qcle_refl|assumption]. Qed.
Theorem C135_bounds_partial {X : Ext} uc sf rs ps p s' : ConvertItem with_validate uc sf rs (ps ++ [p]) = Ok s' ->
  Forall typed_response rs -> Forall known_decvar (rp_decvars p) -> Forall (keepable sf) (rp_decvars p) ->
  Forall (faithful_condition rs) (rp_conditions p) -> (forall q, In q ps -> no_feedback q) -> x_ncname [] = false ->
  exists R O rules' l, named uc rs p R O (declared s') /\ rules s' = Some rules' /\ reads_rules rules' = Some l /\
  forall st st', wf_state st -> well_typed st -> declares (reads_item s') st ->
    (forall c, In (RespCondition c) (v1_program uc rs R O p) -> Forall (under_not (answered_response st)) (V1Mig.rc_condition c)) ->
    other_last (v1_program uc rs R O p) -> ResponseProcessing l st = (st', None) ->
    forall v, In v (rp_decvars p) -> de_min v <> None \/ de_max v <> None ->
    holds_null st' (O (decvar_id uc v)) \/
    exists x, holds_number st' (O (decvar_id uc v)) x /\
      (forall lo, de_min v = Some lo -> (forall hi, de_max v = Some hi -> lo <= hi)%Qc -> (lo <= x)%Qc) /\
      (forall hi, de_max v = Some hi -> (x <= hi)%Qc).
Proof.
  intros H1 H2 H3 H4 H5 H6 H7. destruct (conversion_means uc sf rs ps p s' H1 H2 H3 H4 H5 H6 H7) as (R & O & rules' & l & K1 & K2 & K3 & K4 & K5).
  exists R, O, rules', l. split; [exact K1|]. split; [exact K2|]. split; [exact K3|].
  intros st st' L1 L2 L3 L4 L5 L6 v Hv Hb. destruct (K4 st st' L1 L2 L3 L4 L5 L6) as (st1 & _ & B & (W & T & D)).
  pose proof (n_decvar _ _ _ _ _ _ K1 v Hv) as Hd. cbv zeta in Hd. set (n := O (decvar_id uc v)) in *.
  rewrite Forall_forall in H4. assert (Hty : de_baseType v = lit "integer" \/ de_baseType v = lit "float").
  { destruct (de_min v) as [q|] eqn:E1; [destruct (H4 v Hv q (or_introl E1)) as (_ & [(-> & _)|(-> & _)]); auto|].
    destruct (de_max v) as [q|] eqn:E2; [destruct (H4 v Hv q (or_intror E2)) as (_ & [(-> & _)|(-> & _)]); auto|]. destruct Hb; congruence. }
  assert (F : find_decl (reads_item s') n = Some (reads_declaration (OutcomeDeclaration n (lit "single") (de_baseType v) (default_of (de_default v)) None None))).
  { destruct (converts uc sf rs ps p s' H1) as (s1 & s & C & Es). subst s'. change (declared (CloseBounds sf s)) with (declared s) in *.
    exact (find_reads s _ _ (o_inv _ _ _ _ _ (p_phase _ _ _ _ (v_phase _ _ _ _ _ _ C))) Hd). }
  destruct (well_typed_typed _ T n _ (D _ _ F)) as (x0 & X1 & X2 & X3). cbn [reads_declaration d_card d_base] in X2, X3.
  change (card_of (lit "single")) with (Some CSingle) in X2, X3. cbn [card] in X2. destruct x0 as [| |bt oa| | |]; try discriminate X2. cbn [base] in X3.
  destruct oa as [a|].
  - right. pose proof (W _ _ X1) as Wf. assert (Hn : exists x, holds_number st1 n x).
    { destruct Hty as [Ety|Ety]; rewrite Ety in X3; subst bt; destruct a; cbn in Wf; try contradiction; eexists; eexists _, _; (split; [exact X1|]); [left; eauto|right; reflexivity]. }
    destruct Hn as (x & Hn). exists (limited (de_min v) (de_max v) x). split; [apply (b_number _ _ _ _ _ B v x Hv Hn)|]. split.
    + intros lo ->. apply limited_low.
    + intros hi ->. apply limited_high.
  - left. apply (b_null _ _ _ _ _ B v Hv). eexists. exact X1.
Qed.
Print Assumptions C135_bounds_partial.

(** ** Concrete cases *)
#[local] Existing Instance demo.
Definition no_float : Qc -> str := fun _ => [].
Definition s_rs : list response :=
  [mkResponse (lit "R 1") (lit "single") (lit "identifier") None 0; mkResponse (lit "M") (lit "multiple") (lit "identifier") None 0].
Definition s_rp : resprocessing := MigItem.mkRes
  [mkDecE (Some (lit "SCORE")) (lit "integer") (Some (lit "0")) (Some (qz 1)) (Some (qz 10)) [];
   mkDecE (Some (lit "M")) (lit "float") None None None []]
  [MigItem.mkResp true [TEqual true (Some (lit "R 1")) None (lit "A")] [MigItem.mkSet (Some (lit "SCORE")) MigItem.ASet (lit "12")] [lit "F.1"];
   MigItem.mkResp false [TNot [TEqual true (Some (lit "M")) None (lit "C")]] [MigItem.mkSet None MigItem.AAdd (lit "3")] [];
   MigItem.mkResp false [TEqual true (Some (lit "R 1")) None (lit "B")] [MigItem.mkSet None MigItem.ASet (lit "-5")] []].
Definition s_item : MigItem.state := match ConvertItem with_validate false no_float s_rs [s_rp] with Ok s => s | Err _ => new_item end.
Example C131_ex : ConvertItem with_validate false no_float s_rs ([] ++ [s_rp]) = Ok s_item /\
  map fst (declared s_item) = [lit "R_1"; lit "M"; lit "SCORE"; lit "M01"; lit "FEEDBACK"].
Proof. split; vm_compute; reflexivity. Qed.
Lemma distinct_ids (l : list str) : nodup str_eq_dec l = l -> NoDup l.
Proof. intros <-. apply NoDup_nodup. Qed.
Example C132_ex : NoDup (flat_map response_ids s_rs) /\ (length (flat_map response_ids s_rs) <= 99)%nat /\
  (length (flat_map response_ids s_rs) + length (nodup str_eq_dec (outcome_ids false s_rp)) <= 99)%nat /\
  NoDup (map (decvar_id false) (rp_decvars s_rp)) /\ forall c, In c (rp_conditions s_rp) -> Forall (acceptable s_rs) (rc_tests c).
Proof.
  split; [apply distinct_ids; vm_compute; reflexivity|]. split; [vm_compute; lia|]. split; [vm_compute; lia|]. split; [apply distinct_ids; vm_compute; reflexivity|].
  assert (T : forall v t, (v = lit "R 1" \/ v = lit "M") -> acceptable s_rs (TEqual true (Some v) None t)).
  { intros v t [-> | ->]; cbn [acceptable].
    - change (kind_of s_rs (Some (lit "R 1"))) with (lit "single", lit "identifier"). split; [left; reflexivity|]. right. exists "identifier"%string. split; [left|]; reflexivity.
    - change (kind_of s_rs (Some (lit "M"))) with (lit "multiple", lit "identifier"). split; [left; reflexivity|]. right. exists "identifier"%string. split; [left|]; reflexivity. }
  intros c [<-|[<-|[<-|[]]]]; (constructor; [|constructor]); [apply T; auto| |apply T; auto]. split; [apply T; auto|exact I].
Qed.
(** Everything the theorems ask for, a session, and what the rules make of it: 12 + 3 is above
    the bound *)
Lemma s_faithful t : faithful s_rs (TEqual true (Some (lit "R 1")) None t) /\ faithful s_rs (TEqual true (Some (lit "M")) None t).
Proof.
  split; cbn [faithful]; [exists (nth 0 s_rs (mkResponse [] [] [] None 0))|exists (nth 1 s_rs (mkResponse [] [] [] None 0))];
    (split; [cbn; auto|]); (split; [reflexivity|]); (split; [reflexivity|]); (split; [left; reflexivity|]); (split; [left; reflexivity|left; reflexivity]).
Qed.
Example C133_ex : (forall r, In r s_rs -> r_split r = 0%nat) /\ exists l, rules s_item = Some l /\ length l = 4%nat.
Proof. split; [intros r [<-|[<-|[]]]; reflexivity|]. eexists. split; vm_compute; reflexivity. Qed.
Definition s_rules : list responseRule :=
  match rules s_item with Some l => match reads_rules l with Some l => l | None => [] end | None => [] end.
Definition s_start : QtiExpr.state := match ItemSessionState (reads_item s_item) with Ok st => st | Err _ => QtiExpr.mkState (reads_item s_item) [] end.
Definition s_picked (r m : str) : QtiExpr.state :=
  QtiProc.put (QtiProc.put (QtiProc.put s_start (lit "R_1") (VSingle (Some BIdentifier) (Some (AIdent r))))
    (lit "M") (VMultiple (Some BIdentifier) (Some [(Some (AIdent m), 1)]))) (lit "SCORE") (integer 0).
Example C134_ex : Forall typed_response s_rs /\ Forall known_decvar (rp_decvars s_rp) /\ Forall (keepable no_float) (rp_decvars s_rp) /\
  Forall (faithful_condition s_rs) (rp_conditions s_rp) /\ x_ncname [] = false /\
  (exists l, rules s_item = Some l /\ reads_rules l = Some s_rules) /\
  wf_state (s_picked (lit "A") (lit "B")) /\ well_typed (s_picked (lit "A") (lit "B")) /\ declares (reads_item s_item) (s_picked (lit "A") (lit "B")) /\
  (exists st', ResponseProcessing s_rules (s_picked (lit "A") (lit "B")) = (st', None) /\
     assoc (lit "SCORE") (s_map st') = Some (integer 10) /\ shown st' (lit "F_1")) /\
  (exists st', ResponseProcessing s_rules (s_picked (lit "B") (lit "C")) = (st', None) /\
     assoc (lit "SCORE") (s_map st') = Some (integer 1) /\ ~ shown st' (lit "F_1")).
Proof.
  split. { constructor; [|constructor; [|constructor]]; (split; [|discriminate]); [exists "single"%string|exists "multiple"%string]; cbn; auto. }
  split. { constructor; [discriminate|]. constructor; [discriminate|constructor]. }
  split. { constructor; [|constructor; [|constructor]]; intros q [H|H]; try discriminate H; injection H as <-; (split; [discriminate|]); left; (split; [reflexivity|]);
    eexists; (split; [reflexivity|]); unfold int32; lia. }
  split. { destruct (s_faithful (lit "A")) as [A _]. destruct (s_faithful (lit "C")) as [_ C]. destruct (s_faithful (lit "B")) as [B _].
    constructor; [|constructor; [|constructor; [|constructor]]]; (split; [discriminate|]); (split; [constructor; [|constructor]|]);
      try (intros v [<-|[]]; reflexivity); auto. split; [discriminate|]. split; [exact C|exact I]. }
  split; [reflexivity|]. split; [eexists; split; vm_compute; reflexivity|].
  split. { intros n v H. apply assoc_In' in H. vm_compute in H.
    repeat (destruct H as [H|H]; [injection H as _ <-;
      first [exact I | reflexivity | unfold wf_value, wf_atom, int32; cbn; lia
        | cbn; split; [discriminate|]; split; [apply NoDup_cons; [intros []|apply NoDup_nil]|];
          apply Forall_cons; [split; [reflexivity|eexists; split; reflexivity]|apply Forall_nil]]|]); contradiction. }
  split. { intros n r H. vm_compute in H. repeat (destruct H as [H|H]; [injection H as <- <-; vm_compute; reflexivity|]). contradiction. }
  split; [intros n d H; exact H|]. split.
  - eexists. split; [vm_compute; reflexivity|]. split; [vm_compute; reflexivity|]. eexists. split; [vm_compute; reflexivity|left; reflexivity].
  - eexists. split; [vm_compute; reflexivity|]. split; [vm_compute; reflexivity|]. intros (v & E & H). vm_compute in E. injection E as <-. destruct H.
Qed.

(** ** What is missing *)
(** A split response: its parts are declared, the whole is not, and the rule that collected the
    parts is gone; the test uses a variable that is not declared *)
Definition split_rs : list response := [mkResponse (lit "R") (lit "multiple") (lit "string") None 2].
Definition split_rp : resprocessing := MigItem.mkRes []
  [MigItem.mkResp false [TEqual true (Some (lit "R")) None (lit "x")] [] []].
Theorem C131_split_refuted : exists s, ConvertItem with_validate false no_float split_rs [split_rp] = Ok s /\
  map fst (declared s) = [lit "R_INDEX_1"; lit "R_INDEX_2"].
Proof. eexists. split; vm_compute; reflexivity. Qed.
Print Assumptions C131_split_refuted.
Theorem C133_split_refuted : exists s l r, ConvertItem with_validate false no_float split_rs [split_rp] = Ok s /\
  rules s = Some l /\ In r l /\ ~ closed (declared s) r.
Proof.
  eexists _, _, _. split; [vm_compute; reflexivity|]. split; [reflexivity|]. split; [left; reflexivity|].
  intros [H _]. specialize (H (lit "R")). cbn in H. destruct (H (or_introl eq_refl)) as [K|[K|[]]]; discriminate K.
Qed.
Print Assumptions C133_split_refuted.
(** Two resprocessings that show feedback: only the second counts, and FEEDBACK is not declared *)
Definition fb_rp : resprocessing := MigItem.mkRes [] [MigItem.mkResp false [TOther] [] [lit "F"]].
Theorem C133_feedback_refuted : exists s l r, ConvertItem with_validate false no_float [] [fb_rp; fb_rp] = Ok s /\
  rules s = Some l /\ In r l /\ ~ closed (declared s) r.
Proof.
  eexists _, _, _. split; [vm_compute; reflexivity|]. split; [reflexivity|]. split; [left; reflexivity|].
  intros [H _]. specialize (H (lit "FEEDBACK")). cbn in H. apply H. now left.
Qed.
Print Assumptions C133_feedback_refuted.
(** A test without counterpart is left out: the condition asks for less than the version 1
    condition *)
Theorem C134_unsupported_refuted : exists s e e', 
  CloseConditionVar with_validate s [TUnsupported; e] = Ok e' /\ CloseConditionVar with_validate s [e] = Ok e' /\
  forall uc rs R O c, rc_tests c = [TUnsupported; e] -> forall (st : QtiExpr.state) other r, v1_condition uc rs R O c = RespCondition r ->
    ~ all_hold other st (V1Mig.rc_condition r).
Proof.
  exists new_item, TOther. eexists. split; [reflexivity|]. split; [reflexivity|].
  intros uc rs R O c Hc st other r [= <-] H. cbn [V1Mig.rc_condition] in H. rewrite Hc in H. inversion H as [|? ? K]; subst. exact K.
Qed.
Print Assumptions C134_unsupported_refuted.
(** A comparison without regard to case is made with regard to case, unless it is of a single
    string *)
Theorem C134_case_refuted s id text : CloseTest with_validate s (TEqual false id None text) = CloseTest with_validate s (TEqual true id None text) \/
  exists d, GetResponse s (option_map response_id id) = Some d /\ decl_baseType d = lit "string" /\ decl_cardinality d = lit "single".
Proof.
  cbn [CloseTest]. change (ReadAttribute with_validate id RESPONSE_PREFIX) with (ReadAttribute Vv id RESPONSE_PREFIX). rewrite read_attribute. cbn [bind]. unfold CloseEqual, MakeVariableExpression. destruct (GetResponse s (option_map response_id id)) as [d|]; [|left; reflexivity].
  cbn [bind]. destruct (str_eqb (decl_cardinality d) (lit "single")) eqn:E1; [|left; reflexivity].
  destruct (str_eqb (decl_baseType d) (lit "string")) eqn:E2.
  - right. exists d. apply str_eqb_eq in E1, E2. auto.
  - left. reflexivity.
Qed.
Print Assumptions C134_case_refuted.
(** A test of one answer of an ordered response: what is compared is the answer with that number,
    counted from 1, or NULL if there are fewer *)
Theorem C134_index {X : Ext} s case id n text d : GetResponse s (Some (response_id id)) = Some d ->
  decl_cardinality d = lit "ordered" -> 1 <= n ->
  one_of ["identifier"; "pair"; "integer"; "string"; "float"]%string (decl_baseType d) ->
  exists x mk a t v, CloseTest with_validate s (TEqual case (Some id) (Some n) text) = Ok [x] /\
    base_of (decl_baseType d) = Some t /\ reads x = Some (mk [a; EBaseValue (Some t) v]) /\
    mk = match t with BString => EStringMatch case false | BFloat => EEqual TExact [] true true | _ => EMatch end /\
    forall st l, wf_state st -> assoc (decl_identifier d) (s_map st) = Some (VOrdered (Some t) (Some l)) ->
      eval st a = Ok (VSingle (Some t) (nth_error (members (VOrdered (Some t) (Some l))) (Z.to_nat (n - 1)))).
Proof.
  intros Hd Hc Hn (b & Hb & Et). cbn [CloseTest]. change (ReadAttribute with_validate (Some id) RESPONSE_PREFIX) with (@Ok (option str) (Some (response_id id))).
  cbn [bind]. unfold CloseEqual, MakeVariableExpression. rewrite Hd, Hc, Et. replace (n =? 0) with false by lia.
  change (str_eqb (lit "ordered") (lit "multiple")) with false. change (str_eqb (lit "ordered") (lit "single")) with false. cbn iota. cbn [bind].
  assert (V : forall t st l, wf_state st -> assoc (decl_identifier d) (s_map st) = Some (VOrdered (Some t) (Some l)) ->
    eval st (EIndex (Some n) (EVariable (decl_identifier d))) = Ok (VSingle (Some t) (nth_error (members (VOrdered (Some t) (Some l))) (Z.to_nat (n - 1))))).
  { intros t st l Hw Ha. apply C42_index; [|exact (Hw _ _ Ha)|exact Hn]. cbn [eval]. unfold ev_variable, get_var. rewrite Ha. reflexivity. }
  destruct Hb as [<-|[<-|[<-|[<-|[<-|[]]]]]]; eexists _, _, _, _, _; (split; [reflexivity|]); (split; [reflexivity|]); (split; [reflexivity|]);
    (split; [reflexivity|]); intros st l Hw Ha; exact (V _ st l Hw Ha).
Qed.
Print Assumptions C134_index.
Example C134_index_ex : exists s d, ConvertItem with_validate false no_float [mkResponse (lit "R") (lit "ordered") (lit "identifier") None 0] [] = Ok s /\
  GetResponse s (Some (response_id (lit "R"))) = Some d /\ decl_cardinality d = lit "ordered" /\ decl_baseType d = lit "identifier".
Proof. eexists _, _. split; [vm_compute; reflexivity|]. split; [vm_compute; reflexivity|]. split; reflexivity. Qed.
(** The parts of a split response are collected in their order; the rule that does it is the last
    one when the response is converted *)
Theorem C134_parts rs s r s' k : CloseResponses with_validate new_item rs = Ok s -> r_split r = S k ->
  CloseResponse with_validate s r = Ok s' ->
  exists ns n l, rules s' = Some (l ++ [SetOutcomeValue n (MultiOperator
      (if str_eqb (r_cardinality r) (lit "ordered") then lit "ordered" else lit "multiple") (map VariableOperator ns))]) /\
    dget (response_id (r_ident r)) (responses s') = Some n /\
    map Some ns = map (fun j => dget (part_id r j) (responses s')) (seq 1 (S k)).
Proof.
  intros Hs Ek H. assert (P : Rphase s).
  { apply responses_step in Hs; [apply Hs|]. split; [|split; reflexivity]. exact inv_new. }
  unfold CloseResponse in H. change (ReadIdentifier with_validate (r_ident r) RESPONSE_PREFIX) with (@Ok str (response_id (r_ident r))) in H.
  cbn [bind] in H. rewrite Ek in H.
  destruct (declare_indexed _ _ _ _ _) as [[s1 ns]|] eqn:E1; cbn [bind] in H; [|discriminate].
  destruct (DeclareFakeResponse _ _ _ _) as [[s2 n2]|] eqn:E2; cbn [bind] in H; [|discriminate]. injection H as <-.
  apply declare_indexed_step in E1; [|exact P]. destruct E1 as (P1 & G1 & Hr1 & Hi1 & Hns1 & Hru1 & K1).
  destruct P1 as (I1 & Ho1 & Hf1). unfold DeclareFakeResponse in E2.
  apply declare_step in E2; [|exact I1|reflexivity]. destruct E2 as (I2 & G2 & Hr2 & Ho2 & Hru2 & Hf2 & Hi2 & Hn2 & K2).
  exists ns, n2, (match rules s2 with Some l => l | None => [] end). split; [reflexivity|]. split; [exact Hn2|].
  cbn [add_rule responses]. rewrite Hns1. apply map_ext_in. intros j Hj. apply in_seq in Hj.
  destruct (Hi1 j ltac:(lia)) as (m & Hm & _). rewrite Hm. symmetry. apply G2, Hm.
Qed.
Print Assumptions C134_parts.
Example C134_parts_ex : exists s, CloseResponse with_validate new_item (mkResponse (lit "R") (lit "ordered") (lit "string") None 3) = Ok s /\
  rules s = Some [SetOutcomeValue (lit "R") (MultiOperator (lit "ordered")
    [VariableOperator (lit "R_INDEX_1"); VariableOperator (lit "R_INDEX_2"); VariableOperator (lit "R_INDEX_3")])].
Proof. eexists. split; vm_compute; reflexivity. Qed.
(** A bound of 0 is ignored *)
Definition bound_rp (t : str) (lo hi : option Qc) : resprocessing := MigItem.mkRes [mkDecE (Some (lit "S")) t None lo hi []] [].
Theorem C135_zero_refuted uc sf t : exists s, ConvertItem with_validate uc sf [] [bound_rp t (Some (qz 0)) (Some (qz 0))] = Ok s /\ rules s = Some [].
Proof. destruct uc; eexists; (split; [vm_compute; reflexivity|]); vm_compute; reflexivity. Qed.
Print Assumptions C135_zero_refuted.
(** The lower bound 5/2 of an integer lets 2 through *)
Theorem C135_fraction_refuted : exists s l st lo, ConvertItem with_validate false no_float [] [bound_rp (lit "integer") (Some lo) None] = Ok s /\
  reads_rules match rules s with Some l => l | None => [] end = Some l /\ wf_state st /\ declares (reads_item s) st /\
  (qz 2 < lo)%Qc /\ assoc (lit "S") (s_map st) = Some (integer 2) /\ ResponseProcessing l st = (st, None).
Proof.
  eexists _, _. exists (QtiExpr.mkState (QtiExpr.mkItem [] [] [mkDecl (lit "S") (Some CSingle) (Some BInteger) None KOutcome] false) [(lit "S", integer 2)]).
  exists (Q2Qc (5 # 2)). split; [vm_compute; reflexivity|]. split; [vm_compute; reflexivity|]. split.
  { intros n v H. apply assoc_In' in H. destruct H as [[= <- <-]|[]]. cbn. unfold int32. lia. }
  split; [intros n d H; exact H|]. split; [reflexivity|]. split; vm_compute; reflexivity.
Qed.
Print Assumptions C135_fraction_refuted.
(** The bound of a string: the rule raises an exception whenever there is a value *)
Theorem C135_string_refuted {X : Ext} sf lo s : lo <> qz 0 -> ConvertItem with_validate false sf [] [bound_rp (lit "string") (Some lo) None] = Ok s ->
  forall l, reads_rules match rules s with Some l => l | None => [] end = Some l ->
  forall st t, assoc (lit "S") (s_map st) = Some (VSingle (Some BString) (Some (AStr t))) -> exists st' e, ResponseProcessing l st = (st', Some e).
Proof.
  intros Hlo Hc l Hl st t Hs. unfold ConvertItem in Hc. cbn [CloseResponses bind] in Hc. remember (CloseResProcessings with_validate false new_item [bound_rp (lit "string") (Some lo) None]) as r eqn:Er.
  vm_compute in Er. subst r. cbn [bind] in Hc. injection Hc as <-. unfold CloseBounds in Hl. cbn [set_rules rules outcomes variables flat_map app] in Hl.
  unfold outcome_bounds in Hl. cbn [snd dget] in Hl.
  match type of Hl with context [dget ?k ?d] => let r := eval vm_compute in (dget k d) in change (dget k d) with r in Hl | _ => idtac end.
  cbn in Hl. destruct (Qc_eq_bool lo 0) eqn:E; [apply Qc_eq_bool_correct in E; exfalso; apply Hlo; rewrite E; reflexivity|].
  cbn in Hl. injection Hl as <-. unfold ResponseProcessing, processing. cbn [run_rules run_rule run_parts condition eval mapM]. unfold ev_variable, get_var.
  change [83] with (lit "S"). rewrite Hs. cbn [bind catch_key new_single]. destruct (parse_single BFloat (RText (sf lo))) as [oa|e] eqn:Ep; cbn; eauto.
Qed.
Print Assumptions C135_string_refuted.
