(** Properties C40-C47 and C82-C87 of QTI values and expressions. *)
From Coq Require Import QArith Qcanon Qround.
From Verif Require Import Py Dec XmlUtils Xsd XsdSpec XsdProofs XsdProofs2 QtiValue QtiExpr QtiSpec
  QtiProofs QtiProofs2 QtiProofs3 QtiProofs4 QtiProofs5.
Open Scope Z_scope.
Open Scope list_scope.

(** Functions outside the model, for the examples only *)
Definition demo : Ext := {|
  x_ncname s := match s with [] => false | c :: _ => 65 <=? c end;
  x_double s := n <- DecodeInteger s ;; Ok (qz n);
  x_lower s := lower s;
  x_match p s := Some (str_eqb p s);
  x_pow x y := Ok (Qcmult x y);
  x_decimal _ _ := Err Unmodelled;
  x_encdouble _ _ := Err Unmodelled |}.
Definition demo_state : state := mkState (mkItem [] [] [] false)
  [(lit "A", VOrdered (Some BInteger) (Some [Some (AInt 1); Some (AInt 2); Some (AInt 1)]));
   (lit "B", VMultiple (Some BIdentifier) (Some [(Some (AIdent (lit "X")), 2); (Some (AIdent (lit "Y")), 1)]));
   (lit "N", VSingle (Some BBoolean) None);
   (lit "U", VNull)].
Definition int_lit (s : str) := EBaseValue (Some BInteger) s.
Definition id_lit (s : str) := EBaseValue (Some BIdentifier) s.
Definition bool_lit (s : str) := EBaseValue (Some BBoolean) s.

Section Props.
Context {X : Ext}.

Definition evaluates (st : state) (es : list expr) (vs : list value) : Prop :=
  Forall2 (fun e v => eval st e = Ok v) es vs.
Lemma evaluates_mapM st es vs : evaluates st es vs -> mapM (eval st) es = Ok vs.
Proof. induction 1 as [|e v es vs He H IH]; cbn [mapM]; [reflexivity|]. rewrite He. cbn [bind]. rewrite IH. reflexivity. Qed.
Ltac go H := cbn [eval]; rewrite (evaluates_mapM _ _ _ H); cbn [bind].
Lemma ev2 st e1 e2 v1 v2 : eval st e1 = Ok v1 -> eval st e2 = Ok v2 -> evaluates st [e1; e2] [v1; v2].
Proof. intros H1 H2. constructor; [exact H1|]. constructor; [exact H2|constructor]. Qed.

(** C40 *)
Theorem C40_and st es vs obs : evaluates st es vs -> Forall2 bool_operand vs obs ->
  exists r, eval st (EAnd es) = Ok (boolean r) /\ best_answer conj obs r.
Proof.
  intros H Hb. go H. unfold op_and. rewrite (check_booleans_ok _ _ Hb). cbn [bind].
  eexists. split; [reflexivity|]. apply and_best. exact Hb.
Qed.
Theorem C40_or st es vs obs : evaluates st es vs -> Forall2 bool_operand vs obs ->
  exists r, eval st (EOr es) = Ok (boolean r) /\ best_answer disj obs r.
Proof.
  intros H Hb. go H. unfold op_or. rewrite (check_booleans_ok _ _ Hb). cbn [bind].
  eexists. split; [reflexivity|]. apply or_best. exact Hb.
Qed.
Theorem C40_not st e v ob : eval st e = Ok v -> bool_operand v ob ->
  exists r, eval st (ENot e) = Ok (boolean r) /\ best_answer negation [ob] r.
Proof.
  intros H Hb. cbn [eval]. rewrite H. cbn [bind]. unfold op_not.
  destruct (bool_operand_base _ _ Hb) as [E|E]; destruct (bool_operand_card _ _ Hb) as [E2|E2]; rewrite E, E2;
    cbn; eexists; (split; [reflexivity|]); apply not_best; exact Hb.
Qed.
(** ... and nothing else than such operands is accepted *)
Theorem C40_operands st es vs v : evaluates st es vs -> Forall wf_value vs ->
  eval st (EAnd es) = Ok v \/ eval st (EOr es) = Ok v -> exists obs, Forall2 bool_operand vs obs.
Proof.
  intros H Hw Hv. apply check_booleans_inv; [exact Hw|]. cbn [eval] in Hv. rewrite (evaluates_mapM _ _ _ H) in Hv.
  cbn [bind] in Hv. unfold op_and, op_or in Hv. destruct (check_booleans vs) as [[]|]; [reflexivity|].
  destruct Hv; discriminate.
Qed.

(** C41 *)
Theorem C41_anyn st mn mx a b es vs obs : is_ref mn = false -> DecodeInteger mn = Ok a ->
  is_ref mx = false -> DecodeInteger mx = Ok b -> a <= b ->
  evaluates st es vs -> Forall2 bool_operand vs obs ->
  exists r, eval st (EAnyN (Some mn) (Some mx) es) = Ok (boolean r) /\ best_answer (between a b) obs r.
Proof.
  intros Hr1 H1 Hr2 H2 Hab H Hb. cbn [eval]. unfold IntegerOrTemplateRef. rewrite Hr1, H1, Hr2, H2. cbn [bind].
  rewrite (evaluates_mapM _ _ _ H). cbn [bind]. unfold op_anyn. rewrite (check_booleans_ok _ _ Hb). cbn [bind].
  rewrite (anyn_loop_eq _ _ Hb). eexists. split; [reflexivity|].
  rewrite !Z.add_0_l. apply anyn_best. exact Hab.
Qed.

(** C42 *)
Theorem C42_multiple st es vs b : evaluates st es vs -> Forall wf_value vs -> Forall (operand_of CMultiple b) vs ->
  exists v, eval st (EMultiple es) = Ok v /\ card v = Some CMultiple /\ wf_value v /\
    (forall a, occurs a v = list_sum (map (occurs a) vs)) /\
    (non_null v = false <-> forall w, In w vs -> members w = []).
Proof.
  intros H Hw Ho. go H. destruct (op_multiple_ok b vs Hw Ho) as (bt & r & E & _ & Hwf & Hc & Hn).
  exists (VMultiple bt r). split; [exact E|]. split; [reflexivity|]. split; [exact Hwf|]. split.
  - intros a. rewrite Hc. apply count_flat.
  - transitivity (r = None); [destruct r; cbn; split; congruence|]. rewrite Hn. clear.
    induction vs as [|v vs IH]; cbn [flat_map In]; [split; [intros _ w []|reflexivity]|].
    split.
    + intros E. apply app_eq_nil in E as [E1 E2]. intros w [<-|Hw]; [exact E1|]. apply IH; assumption.
    + intros E. rewrite (E v) by auto. apply IH. auto.
Qed.
Theorem C42_ordered st es vs b : evaluates st es vs -> Forall wf_value vs -> Forall (operand_of COrdered b) vs ->
  exists v, eval st (EOrdered es) = Ok v /\ card v = Some COrdered /\ wf_value v /\
    members v = flat_map members vs /\ (non_null v = false <-> members v = []).
Proof.
  intros H Hw Ho. go H. destruct (op_ordered_ok b vs Hw Ho) as (bt & r & E & _ & Hwf & Hc & Hn).
  exists (VOrdered bt r). split; [exact E|]. split; [reflexivity|]. split; [exact Hwf|]. split; [exact Hc|].
  rewrite Hc, <- Hn. destruct r; cbn; split; congruence.
Qed.
Theorem C42_delete st e1 e2 b a c : eval st e1 = Ok (VSingle (Some b) (Some a)) -> eval st e2 = Ok c ->
  wf_value c -> base c = Some b -> b <> BDuration -> (card c = Some COrdered \/ card c = Some CMultiple) ->
  non_null c = true ->
  exists v, eval st (EDelete [e1; e2]) = Ok v /\ card v = card c /\ base v = Some b /\ wf_value v /\
    (forall x, occurs x v = if atom_eq_dec a x then O else occurs x c) /\
    (card c = Some COrdered -> members v = remove atom_eq_dec a (members c)).
Proof.
  intros H1 H2 Hw Hb Hd Hc Hn. go (ev2 _ _ _ _ _ H1 H2).
  destruct (op_delete_ok b a c Hw Hb Hd Hc Hn) as (v & E & Ec & Eb & Hwf & Hm & Ho).
  exists v. repeat (split; [assumption|]). split; [|exact Hm].
  intros x. rewrite Ho. apply count_remove.
Qed.
Theorem C42_delete_null st e1 e2 b s c : eval st e1 = Ok s -> eval st e2 = Ok c ->
  base s = Some b -> base c = Some b -> b <> BDuration ->
  card s = Some CSingle -> (card c = Some COrdered \/ card c = Some CMultiple) ->
  non_null s = false \/ non_null c = false ->
  exists v, eval st (EDelete [e1; e2]) = Ok v /\ card v = card c /\ base v = Some b /\ non_null v = false.
Proof.
  intros H1 H2 Hs Hb Hd Hcs Hc Hn. go (ev2 _ _ _ _ _ H1 H2). eapply op_delete_null; eassumption.
Qed.
Theorem C42_member st e1 e2 b a c : eval st e1 = Ok (VSingle (Some b) (Some a)) -> eval st e2 = Ok c ->
  wf_value c -> base c = Some b -> b <> BDuration -> (card c = Some COrdered \/ card c = Some CMultiple) ->
  non_null c = true ->
  exists r, eval st (EMember [e1; e2]) = Ok (boolean (Some r)) /\ (r = true <-> In a (members c)).
Proof.
  intros H1 H2 Hw Hb Hd Hc Hn. go (ev2 _ _ _ _ _ H1 H2). apply op_member_ok; assumption.
Qed.
(** The value is the first operand's occurrence in the second, the converse of the documented
    direction *)
Theorem C42_contains_partial st e1 e2 b v1 v2 c : eval st e1 = Ok v1 -> eval st e2 = Ok v2 ->
  wf_value v1 -> wf_value v2 -> base v1 = Some b -> base v2 = Some b -> b <> BDuration ->
  card v1 = Some c -> card v2 = Some c -> (c = COrdered \/ c = CMultiple) ->
  non_null v1 = true -> non_null v2 = true ->
  exists r, eval st (EContains [e1; e2]) = Ok (boolean (Some r)) /\
    (c = COrdered -> (r = true <-> infix_of (members v1) (members v2))) /\
    (c = CMultiple -> (r = true <-> forall a, (occurs a v1 <= occurs a v2)%nat)).
Proof.
  intros H1 H2 Hw1 Hw2 Hb1 Hb2 Hd Hc1 Hc2 Hc Hn1 Hn2. go (ev2 _ _ _ _ _ H1 H2).
  destruct Hc as [-> | ->].
  - destruct v1 as [| | |bt1 [l1|]| |]; cbn in Hc1, Hn1, Hb1; try discriminate. subst bt1.
    destruct v2 as [| | |bt2 [l2|]| |]; cbn in Hc2, Hn2, Hb2; try discriminate. subst bt2.
    destruct (op_contains_ordered b l1 l2 Hw1 Hw2 Hd) as (r & E & Hr). exists r. split; [exact E|]. split; [auto|discriminate].
  - destruct v1 as [| | | |bt1 [l1|]|]; cbn in Hc1, Hn1, Hb1; try discriminate. subst bt1.
    destruct v2 as [| | | |bt2 [l2|]|]; cbn in Hc2, Hn2, Hb2; try discriminate. subst bt2.
    destruct (op_contains_multiple b l1 l2 Hw1 Hw2 Hd) as (r & E & Hr). exists r. split; [exact E|]. split; [discriminate|auto].
Qed.
Theorem C42_size st e v : eval st e = Ok v -> wf_value v ->
  (card v = Some COrdered \/ card v = Some CMultiple) -> Z.of_nat (length (members v)) <= 2147483647 ->
  eval st (EContainerSize e) = Ok (integer (Z.of_nat (length (members v)))).
Proof.
  intros H Hw Hc Hl. cbn [eval]. rewrite H. cbn [bind]. rewrite op_container_size_ok by assumption.
  apply mkint_ok. unfold int32. lia.
Qed.
Theorem C42_index st e b l n : eval st e = Ok (VOrdered (Some b) (Some l)) -> wf_value (VOrdered (Some b) (Some l)) ->
  1 <= n ->
  eval st (EIndex (Some n) e) =
  Ok (VSingle (Some b) (nth_error (members (VOrdered (Some b) (Some l))) (Z.to_nat (n - 1)))).
Proof. intros H Hw Hn. cbn [eval]. rewrite H. cbn [bind]. apply op_index_ok; assumption. Qed.

(** C43 *)
Theorem C43_type_sound_partial st e v : wf_state st -> literals_ok e -> eval st e = Ok v -> wf_value v.
Proof. intros Hs Hl He. eapply eval_wf; eassumption. Qed.

(** C44 *)
Theorem C44_reads_partial st st' e : s_item st = s_item st' ->
  (forall n, In n (mentions e) -> assoc n (s_map st) = assoc n (s_map st')) -> eval st e = eval st' e.
Proof. intros Hi Hm. exact (eval_ext st st' Hi e Hm). Qed.

(** C45 *)
Theorem C45_divide_partial st e1 e2 x y : eval st e1 = Ok (integer x) -> eval st e2 = Ok (integer y) ->
  int32 x -> int32 y -> y <> 0 -> ~ (x = -2147483648 /\ y = -1) ->
  exists i, eval st (EIntegerDivide [e1; e2]) = Ok (integer i) /\
    (forall j, (inject_Z j <= inject_Z x / inject_Z y)%Q <-> j <= i) /\
    eval st (EIntegerModulus [e1; e2]) = Ok (integer (x - i * y)).
Proof.
  intros H1 H2 Hx Hy H0 Hb. exists (x / y). cbn [eval]. rewrite (evaluates_mapM _ _ _ (ev2 _ _ _ _ _ H1 H2)). cbn [bind].
  rewrite !op_integer_ok by exact H0. split; [apply mkint_ok; apply div_range; assumption|]. split.
  - intros j. rewrite (Zdiv_Qdiv x y). apply floor_spec.
  - replace (x - x / y * y) with (x mod y) by (rewrite Z.mod_eq by exact H0; lia).
    apply mkint_ok. apply mod_range; assumption.
Qed.
Theorem C45_zero st e1 e2 x : eval st e1 = Ok (integer x) -> eval st e2 = Ok (integer 0) ->
  eval st (EIntegerDivide [e1; e2]) = Ok (VSingle (Some BInteger) None) /\
  eval st (EIntegerModulus [e1; e2]) = Ok (VSingle (Some BInteger) None).
Proof.
  intros H1 H2. cbn [eval]. rewrite (evaluates_mapM _ _ _ (ev2 _ _ _ _ _ H1 H2)). auto.
Qed.
(** the one quotient of two 32-bit integers that does not fit raises ValueError *)
Theorem C45_refuted st : exists e1 e2, exists x y, eval st e1 = Ok (integer x) /\ eval st e2 = Ok (integer y) /\
  int32 x /\ int32 y /\ y <> 0 /\ eval st (EIntegerDivide [e1; e2]) = Err ValueError.
Proof.
  exists (int_lit (lit "-2147483648")), (int_lit (lit "-1")), (-2147483648), (-1).
  split; [vm_compute; reflexivity|]. split; [vm_compute; reflexivity|]. unfold int32. repeat split; try lia.
Qed.

(** C46 *)
Theorem C46_map mp bt entries keys b v : wf_value v -> base v = Some b -> non_null v = true ->
  Forall2 (fun e k => new_single bt (option_map RText (fst e)) = Ok (VSingle bt k)) entries keys ->
  build_map bt [] entries = Ok (m_map mp) ->
  exists r, MapValue mp v = Ok (VSingle (Some BFloat) (Some (AFloat r))) /\
    bounded (m_lower mp) (m_upper mp)
      (qsum (map (fun a => match last_entry oatom_eqb (Some a) (combine keys (map snd entries)) with
                           | Some q => q | None => m_default mp end)
                 (nodup atom_eq_dec (members v)))) r.
Proof.
  intros Hw Hb Hn HF Hm. destruct (MapValue_ok mp b v Hw Hb Hn) as (r & E & Hr). exists r. split; [exact E|].
  replace (map _ _) with (map (score (m_map mp) (m_default mp)) (nodup atom_eq_dec (members v))); [exact Hr|].
  apply map_ext. intros a. unfold score. rewrite (build_map_get bt entries keys [] _ HF Hm).
  destruct (last_entry _ _ _); reflexivity.
Qed.
Theorem C46_bounds mp b v r : wf_value v -> base v = Some b -> non_null v = true ->
  MapValue mp v = Ok (VSingle (Some BFloat) (Some (AFloat r))) ->
  (forall l u, m_lower mp = Some l -> m_upper mp = Some u -> Qcle l u) ->
  (forall l, m_lower mp = Some l -> Qcle l r) /\ (forall u, m_upper mp = Some u -> Qcle r u).
Proof.
  intros Hw Hb Hn E Hlu. destruct (MapValue_ok mp b v Hw Hb Hn) as (r' & E' & Hr). rewrite E in E'.
  injection E' as <-. destruct Hr as [(-> & Hl & Hu)|[(Hl & Hlt)|(Hu & Hlt)]]; [auto| |].
  - split; [intros l El; rewrite Hl in El; injection El as <-; apply Qcle_refl|]. intros u Eu. apply Hlu; assumption.
  - split; [|intros u Eu; rewrite Hu in Eu; injection Eu as <-; apply Qcle_refl]. intros l El. apply Hlu; assumption.
Qed.
Theorem C46_order_irrelevant mp b v w : wf_value v -> wf_value w -> base v = Some b -> base w = Some b ->
  non_null v = true -> non_null w = true -> (forall a, In a (members v) <-> In a (members w)) ->
  MapValue mp v = MapValue mp w.
Proof.
  intros Hv Hw Hbv Hbw Hnv Hnw Hm. unfold MapValue.
  destruct (src_values_members b v Hv Hbv Hnv) as (l1 & -> & H1).
  destruct (src_values_members b w Hw Hbw Hnw) as (l2 & -> & H2). cbn [bind].
  rewrite Hnv, Hnw, Hbv, Hbw. cbn [negb orb].
  change (@nil (option atom)) with (map (@Some atom) []). rewrite !map_loop_firsts, !fold_left_qadd.
  assert (E : qsum (map (score (m_map mp) (m_default mp)) (firsts [] l1)) =
              qsum (map (score (m_map mp) (m_default mp)) (firsts [] l2))); [|rewrite E; reflexivity].
  apply qsum_perm. apply Permutation.Permutation_map.
  apply Permutation.NoDup_Permutation; try apply firsts_NoDup. intros a. rewrite !firsts_In, H1, H2, Hm. tauto.
Qed.
Theorem C46_null mp v : non_null v = false -> MapValue mp v = Ok (VSingle (Some BFloat) (Some (AFloat (Q2Qc 0)))).
Proof. intros H. unfold MapValue, src_values. rewrite H. reflexivity. Qed.

(** C47 *)
Theorem C47_interpolation bt dflt d entries oas v x : source v x ->
  target bt dflt d -> Forall2 (fun e oa => target bt (snd e) oa) entries oas ->
  (exists pre e post oa, entries = pre ++ e :: post /\ Forall (fun e => ~ applies x e) pre /\ applies x e /\
     target bt (snd e) oa /\ InterpLookup bt dflt entries v = Ok (VSingle bt oa)) \/
  (Forall (fun e => ~ applies x e) entries /\ InterpLookup bt dflt entries v = Ok (VSingle bt d)).
Proof.
  intros Hs Hd HF.
  assert (G : (exists pre e post, entries = pre ++ e :: post /\ Forall (fun e => ~ applies x e) pre /\ applies x e) \/
              Forall (fun e => ~ applies x e) entries).
  { clear. induction entries as [|e es IH]; [right; constructor|].
    destruct (let '(q, lte, _) := e in qc_ltb q x || (lte && qc_eqb q x)) eqn:E.
    - left. exists [], e, es. split; [reflexivity|]. split; [constructor|]. apply applies_hit. exact E.
    - assert (~ applies x e) by (rewrite applies_hit, E; discriminate).
      destruct IH as [(pre & e' & post & -> & Hp & He)|Hf]; [left|right; constructor; assumption].
      exists (e :: pre), e', post. repeat split; auto. }
  destruct G as [(pre & e & post & -> & Hp & He)|Hf].
  - left. destruct (InterpLookup_hit bt dflt d pre e post oas v x Hs Hd HF Hp He) as (oa & E & Ht).
    exists pre, e, post, oa. auto.
  - right. split; [exact Hf|]. eapply InterpLookup_miss; eassumption.
Qed.
(** A match table returns the target of the last entry equal to the source, the only one when the
    source values are distinct *)
Theorem C47_match bt dflt d entries oas n : target bt dflt d ->
  Forall2 (fun (e : Z * option str) oa => target bt (snd e) oa) entries oas ->
  (exists pre t post oa, entries = pre ++ (n, t) :: post /\ Forall (fun e => fst e <> n) post /\
     target bt t oa /\ MatchLookup bt dflt entries (integer n) = Ok (VSingle bt oa)) \/
  (Forall (fun e => fst e <> n) entries /\ MatchLookup bt dflt entries (integer n) = Ok (VSingle bt d)).
Proof.
  intros Hd HF.
  assert (G : (exists pre t post, entries = pre ++ (n, t) :: post /\ Forall (fun e => fst e <> n) post) \/
              Forall (fun e => fst e <> n) entries).
  { clear. induction entries as [|[k t] es IH]; [right; constructor|].
    destruct IH as [(pre & t' & post & -> & Hp)|Hf].
    - left. exists ((k, t) :: pre), t', post. auto.
    - destruct (Z.eq_dec k n) as [->|N]; [left; exists [], t, es; auto|]. right. constructor; auto. }
  destruct G as [(pre & t & post & -> & Hp)|Hf].
  - left. destruct (MatchLookup_hit bt dflt d pre t post oas n Hd HF Hp) as (oa & E & Ht).
    exists pre, t, post, oa. auto.
  - right. split; [exact Hf|]. eapply MatchLookup_miss; eassumption.
Qed.
Theorem C47_null bt dflt d entries oas entries' oas' v : non_null v = false -> target bt dflt d ->
  Forall2 (fun (e : Z * option str) oa => target bt (snd e) oa) entries oas ->
  Forall2 (fun (e : Qc * bool * option str) oa => target bt (snd e) oa) entries' oas' ->
  MatchLookup bt dflt entries v = Ok (VSingle bt None) /\ InterpLookup bt dflt entries' v = Ok (VSingle bt None).
Proof.
  intros Hn Hd HF HF'. unfold MatchLookup, InterpLookup, table_default. rewrite (proj1 Hd). cbn [bind].
  destruct (match_map_get _ _ _ HF []) as (m & -> & _). rewrite (interp_table_ok _ _ _ HF'). cbn [bind].
  rewrite Hn. cbn [negb]. rewrite (target_none _ _ _ Hd). auto.
Qed.

(** C82 *)
Theorem C82_exact st tol li ui e1 e2 v1 v2 x y : eval st e1 = Ok v1 -> eval st e2 = Ok v2 ->
  number v1 x -> number v2 y ->
  exists r, eval st (EEqual TExact tol li ui [e1; e2]) = Ok (boolean (Some r)) /\ (r = true <-> x = y).
Proof. intros H1 H2 Hx Hy. go (ev2 _ _ _ _ _ H1 H2). apply op_equal_exact; assumption. Qed.
Theorem C82_absolute st s0 s1 t0 t1 li ui e1 e2 v1 v2 x y : eval st e1 = Ok v1 -> eval st e2 = Ok v2 ->
  number v1 x -> number v2 y -> is_ref s0 = false -> x_double s0 = Ok t0 -> is_ref s1 = false -> x_double s1 = Ok t1 ->
  exists r, eval st (EEqual TAbsolute [s0; s1] li ui [e1; e2]) = Ok (boolean (Some r)) /\
    (r = true <-> ((if li : bool then Qcle (x - t0)%Qc y else Qclt (x - t0)%Qc y) /\
                   (if ui : bool then Qcle y (x + t1)%Qc else Qclt y (x + t1)%Qc))).
Proof.
  intros H1 H2 Hx Hy Hr0 Ht0 Hr1 Ht1. go (ev2 _ _ _ _ _ H1 H2).
  rewrite (op_equal_tol TAbsolute s0 [s1] t0 t1 li ui v1 v2 x y); try assumption; [|discriminate|right; exists s1, []; auto].
  cbn [bounds]. eexists. split; [reflexivity|]. apply within_iff.
Qed.
Theorem C82_one_tolerance st mode s0 t0 li ui e1 e2 v1 v2 x y : eval st e1 = Ok v1 -> eval st e2 = Ok v2 ->
  number v1 x -> number v2 y -> is_ref s0 = false -> x_double s0 = Ok t0 ->
  eval st (EEqual mode [s0] li ui [e1; e2]) = eval st (EEqual mode [s0; s0] li ui [e1; e2]).
Proof.
  intros H1 H2 Hx Hy Hr0 Ht0. go (ev2 _ _ _ _ _ H1 H2). destruct mode.
  2: { unfold op_equal. reflexivity. }
  all: rewrite (op_equal_tol _ s0 [s0] t0 t0 li ui v1 v2 x y); try assumption; [|discriminate|right; exists s0, []; auto];
       rewrite (op_equal_tol _ s0 [] t0 t0 li ui v1 v2 x y); try assumption; auto; discriminate.
Qed.
(** the relative tolerance, in percent, is that of QTI for a first operand that is not negative *)
Theorem C82_relative_partial st s0 s1 t0 t1 e1 e2 v1 v2 x y : eval st e1 = Ok v1 -> eval st e2 = Ok v2 ->
  number v1 x -> number v2 y -> is_ref s0 = false -> x_double s0 = Ok t0 -> is_ref s1 = false -> x_double s1 = Ok t1 ->
  exists r, eval st (EEqual TRelative [s0; s1] true true [e1; e2]) = Ok (boolean (Some r)) /\
    (r = true <-> Qcle (x * (q1 - t0 / qz 100))%Qc y /\ Qcle y (x * (q1 + t1 / qz 100))%Qc).
Proof.
  intros H1 H2 Hx Hy Hr0 Ht0 Hr1 Ht1. go (ev2 _ _ _ _ _ H1 H2).
  rewrite (op_equal_tol TRelative s0 [s1] t0 t1 true true v1 v2 x y); try assumption; [|discriminate|right; exists s1, []; auto].
  cbn [bounds]. eexists. split; [reflexivity|]. apply (within_iff true true).
Qed.

(** C83 *)
Theorem C83_integers st es ns : evaluates st es (map integer ns) -> ns <> [] ->
  (int32 (zsum ns) -> eval st (ESum es) = Ok (integer (zsum ns))) /\
  (int32 (zprod ns) -> eval st (EProduct es) = Ok (integer (zprod ns))) /\
  (~ int32 (zsum ns) -> eval st (ESum es) = Err ValueError) /\
  (~ int32 (zprod ns) -> eval st (EProduct es) = Err ValueError).
Proof.
  intros H Hn. cbn [eval]. rewrite (evaluates_mapM _ _ _ H). cbn [bind]. unfold op_sum, op_product.
  rewrite !op_fold_ints by exact Hn. rewrite fold_left_zadd, fold_left_zmul, Z.add_0_l, Z.mul_1_l.
  assert (G : forall n, ~ int32 n -> mkint (Some n) = Err ValueError).
  { intros n Hnr. cbn [mkint]. destruct (in_range n) eqn:E; [apply in_range_iff in E; contradiction|reflexivity]. }
  repeat split; intros; try (apply mkint_ok; assumption); apply G; assumption.
Qed.
Theorem C83_floats st es vs xs : evaluates st es vs -> Forall2 number vs xs ->
  (exists v, In v vs /\ base v = Some BFloat) ->
  eval st (ESum es) = Ok (VSingle (Some BFloat) (Some (AFloat (qsum xs)))) /\
  eval st (EProduct es) = Ok (VSingle (Some BFloat) (Some (AFloat (qprod xs)))).
Proof.
  intros H Hx Hf. cbn [eval]. rewrite (evaluates_mapM _ _ _ H). cbn [bind]. unfold op_sum, op_product.
  rewrite !(op_fold_floats _ _ _ _ _ _ Hx Hf). rewrite fold_left_qadd, fold_left_qmul.
  unfold q0, q1. change (Q2Qc 0) with 0%Qc. change (Q2Qc 1) with 1%Qc. rewrite Qcplus_0_l, Qcmult_1_l. auto.
Qed.
Theorem C83_subtract st e1 e2 v1 v2 x y : eval st e1 = Ok v1 -> eval st e2 = Ok v2 -> number v1 x -> number v2 y ->
  (exists m n, v1 = integer m /\ v2 = integer n /\
     (int32 (m - n) -> eval st (ESubtract [e1; e2]) = Ok (integer (m - n)))) \/
  ((base v1 = Some BFloat \/ base v2 = Some BFloat) /\
   eval st (ESubtract [e1; e2]) = Ok (VSingle (Some BFloat) (Some (AFloat (x - y)%Qc)))).
Proof.
  intros H1 H2 Hx Hy. cbn [eval]. rewrite (evaluates_mapM _ _ _ (ev2 _ _ _ _ _ H1 H2)). cbn [bind].
  destruct Hx as [(m & -> & ->)| ->], Hy as [(n & -> & ->)| ->].
  - left. exists m, n. split; [reflexivity|]. split; [reflexivity|]. intros Hr. apply mkint_ok in Hr. exact Hr.
  - right. split; [auto|reflexivity].
  - right. split; [auto|reflexivity].
  - right. split; [auto|reflexivity].
Qed.
Theorem C83_divide st e1 e2 v1 v2 x y : eval st e1 = Ok v1 -> eval st e2 = Ok v2 -> number v1 x -> number v2 y ->
  (y <> q0 -> exists z, eval st (EDivide [e1; e2]) = Ok (VSingle (Some BFloat) (Some (AFloat z))) /\ (z * y)%Qc = x) /\
  (y = q0 -> eval st (EDivide [e1; e2]) = Ok (VSingle (Some BFloat) None)).
Proof.
  intros H1 H2 Hx Hy. cbn [eval]. rewrite (evaluates_mapM _ _ _ (ev2 _ _ _ _ _ H1 H2)). cbn [bind].
  unfold op_divide. destruct (two_numbers_ok _ _ _ _ Hx Hy) as (b & -> & _). cbn [bind].
  rewrite (number_nn _ _ Hx), (number_nn _ _ Hy), (number_float _ _ Hx), (number_float _ _ Hy). cbn [andb bind].
  split.
  - intros N. destruct (qc_eqb y q0) eqn:E; [apply qc_eqb_eq in E; contradiction|].
    eexists. split; [reflexivity|]. unfold Qcdiv. rewrite <- Qcmult_assoc, (Qcmult_comm (/ y)%Qc), Qcmult_inv_r, Qcmult_1_r; [reflexivity|exact N].
  - intros ->. assert (qc_eqb q0 q0 = true) as -> by (apply qc_eqb_eq; reflexivity). reflexivity.
Qed.

(** C84 *)
Theorem C84_round st e q : eval st e = Ok (VSingle (Some BFloat) (Some (AFloat q))) ->
  exists n, (inject_Z n - (1 # 2) <= q)%Q /\ (q < inject_Z n + (1 # 2))%Q /\
    (int32 n -> eval st (ERound e) = Ok (integer n)) /\ (~ int32 n -> eval st (ERound e) = Err ValueError).
Proof.
  intros H. exists (qc_floor (Qcplus q half)). destruct (round_spec q) as [H1 H2]. split; [exact H1|]. split; [exact H2|].
  cbn [eval]. rewrite H. cbn [bind]. unfold op_round, op_to_integer. cbn [base card CheckBaseTypes CheckCardinalities check_bases check_cards baseType_eqb cardinality_eqb bind non_null to_float].
  split; intros Hr; [apply mkint_ok; exact Hr|].
  cbn [mkint]. destruct (in_range _) eqn:E; [apply in_range_iff in E; contradiction|reflexivity].
Qed.
Theorem C84_truncate st e q : eval st e = Ok (VSingle (Some BFloat) (Some (AFloat q))) ->
  exists n, ((0 <= q -> inject_Z n <= q /\ q < inject_Z (n + 1)) /\ (q <= 0 -> q <= inject_Z n /\ inject_Z (n - 1) < q))%Q /\
    (int32 n -> eval st (ETruncate e) = Ok (integer n)) /\ (~ int32 n -> eval st (ETruncate e) = Err ValueError).
Proof.
  intros H. exists (qc_trunc q). split; [apply trunc_spec|].
  cbn [eval]. rewrite H. cbn [bind]. unfold op_truncate, op_to_integer. cbn [base card CheckBaseTypes CheckCardinalities check_bases check_cards baseType_eqb cardinality_eqb bind non_null to_float].
  split; intros Hr; [apply mkint_ok; exact Hr|].
  cbn [mkint]. destruct (in_range _) eqn:E; [apply in_range_iff in E; contradiction|reflexivity].
Qed.
Theorem C84_integer_to_float st e n : eval st e = Ok (integer n) ->
  exists q, eval st (EIntegerToFloat e) = Ok (VSingle (Some BFloat) (Some (AFloat q))) /\ (q == inject_Z n)%Q.
Proof.
  intros H. exists (qz n). cbn [eval]. rewrite H. split; [reflexivity|]. unfold qz. cbn [this Q2Qc]. apply Qred_correct.
Qed.

(** C85 *)
Theorem C85_compare st op e1 e2 v1 v2 x y : eval st e1 = Ok v1 -> eval st e2 = Ok v2 -> number v1 x -> number v2 y ->
  exists r, eval st (ECompare op [e1; e2]) = Ok (boolean (Some r)) /\ (r = true <-> related op x y).
Proof. intros H1 H2 Hx Hy. go (ev2 _ _ _ _ _ H1 H2). apply op_compare_ok; assumption. Qed.
Theorem C85_durations st e1 e2 x y :
  eval st e1 = Ok (VSingle (Some BDuration) (Some (AFloat x))) -> eval st e2 = Ok (VSingle (Some BDuration) (Some (AFloat y))) ->
  (exists r, eval st (EDurationLT [e1; e2]) = Ok (boolean (Some r)) /\ (r = true <-> Qclt x y)) /\
  (exists r, eval st (EDurationGTE [e1; e2]) = Ok (boolean (Some r)) /\ (r = true <-> Qcle y x)).
Proof.
  intros H1 H2. cbn [eval]. rewrite (evaluates_mapM _ _ _ (ev2 _ _ _ _ _ H1 H2)). cbn [bind].
  split; [apply (op_duration_ok OpLT)|apply (op_duration_ok OpGTE)].
Qed.

(** C86 *)
Theorem C86_match st e1 e2 b v w c : eval st e1 = Ok v -> eval st e2 = Ok w ->
  wf_value v -> wf_value w -> base v = Some b -> base w = Some b -> b <> BDuration ->
  card v = Some c -> card w = Some c -> non_null v = true -> non_null w = true ->
  exists r, eval st (EMatch [e1; e2]) = Ok (boolean (Some r)) /\
    (c <> CMultiple -> (r = true <-> members v = members w)) /\
    (c = CMultiple -> (r = true <-> forall a, occurs a v = occurs a w)).
Proof.
  intros H1 H2 Hv Hw Hbv Hbw Hd Hcv Hcw Hnv Hnw. go (ev2 _ _ _ _ _ H1 H2). unfold op_match. cbn [two bind].
  rewrite (value_eq_pre b v w c) by assumption.
  destruct v as [|bt1|bt1 [x|]|bt1 [l|]|bt1 [m|]|[l|]]; cbn in Hbv, Hnv, Hcv; try discriminate; subst bt1; injection Hcv as <-;
    destruct w as [|bt2|bt2 [x'|]|bt2 [l'|]|bt2 [m'|]|[l'|]]; cbn in Hbw, Hnw, Hcw; try discriminate; subst bt2;
    cbn [py_eq bind]; (eexists; split; [reflexivity|]); (split; [intros Hc|intros Hc; try discriminate]); try congruence.
  - rewrite atom_eqb_eq. cbn [members]. split; [intros ->; reflexivity|intros E; injection E; auto].
  - rewrite (list_eqb_iff _ oatom_eqb_eq). cbn [members].
    pose proof (GetValues_somes b _ Hv eq_refl) as E1. pose proof (GetValues_somes b _ Hw eq_refl) as E2. cbn [GetValues] in E1, E2.
    split; [intros ->; reflexivity|]. intros E. rewrite E1, E2, E. reflexivity.
  - rewrite (dict_eqb_iff b) by (apply value_bag; assumption). apply value_bag in Hv. apply value_bag in Hw. split.
    + intros E a. apply Nat2Z.inj. rewrite !(occurs_bag b) by assumption. apply E.
    + intros E a. rewrite <- !(occurs_bag b (Some b)) by assumption. rewrite E. reflexivity.
Qed.

(** C87 *)
Theorem C87_copy_partial v b : wf_value v -> non_null v = true -> base v = Some b ->
  exists w, CopyValue v = Ok w /\ card w = card v /\ base w = base v /\ wf_value w /\
    (card v <> Some CMultiple -> w = v) /\ (forall a, In a (members w) <-> In a (members v)).
Proof.
  intros Hw Hn Hb. unfold CopyValue. rewrite Hb.
  destruct v as [|bt|bt [x|]|bt [l|]|bt [m|]|[l|]]; cbn in Hb, Hn; try discriminate; subst bt; cbn [card new_value payload_of].
  - pose proof Hw as Hw'. apply wf_not_file in Hw'. rewrite new_single_none by tauto. cbn [bind].
    rewrite set_single_raw by exact Hw. eexists. split; [reflexivity|]. repeat split; auto.
  - cbn [bind set_value]. pose proof (GetValues_somes b _ Hw eq_refl) as E1. cbn [GetValues] in E1.
    rewrite set_ordered_raws by (apply (members_wf _ Hw b eq_refl)). cbn [finish].
    assert (Hne : somes l <> []) by (intros E; destruct Hw as [Hne _]; rewrite E in E1; cbn in E1; congruence).
    exists (VOrdered (Some b) (Some l)). split; [|repeat split; auto; apply Hw].
    destruct (somes l) eqn:E; [congruence|]. rewrite <- E1. reflexivity.
  - cbn [bind set_value]. replace (map (fun p => option_map raw_of (fst p)) m) with (map (option_map raw_of) (map fst m)) by apply map_map.
    destruct (src_values_members b _ Hw eq_refl eq_refl) as (l & El & Hl). cbn [src_values non_null negb] in El. injection El as El.
    pose proof (members_wf _ Hw b eq_refl) as Hm.
    assert (Hs : somes (map fst m) = l) by (rewrite El; apply somes_map_some).
    assert (Hlw : Forall (wf_atom b) l) by (apply Forall_forall; intros a Ha; apply Hl in Ha; rewrite Forall_forall in Hm; auto).
    rewrite set_multiple_raws by (rewrite Hs; exact Hlw). rewrite Hs. cbn [finish].
    assert (Hne : l <> []).
    { intros ->. destruct Hw as (Hne & _). destruct m; [congruence|discriminate]. }
    destruct l as [|a0 l0] eqn:E; [congruence|]. rewrite <- E in *. eexists. split; [reflexivity|].
    split; [reflexivity|]. split; [reflexivity|]. split; [|split; [cbn; congruence|]].
    + apply bag_value; [apply bag_of_wf; exact Hlw|]. intros Ec. apply bag_of_nil in Ec. congruence.
    + intros a. rewrite <- Hl. rewrite !(count_occ_In atom_eq_dec). fold (occurs a (VMultiple (Some b) (Some (bag_of l)))).
      rewrite (bag_occurs b) by exact Hlw. tauto.
Qed.
Theorem C87_copy_record v l : v = VRecord (Some l) -> l <> [] -> CopyValue v = Ok v.
Proof. intros -> H. cbn. destruct l; [congruence|reflexivity]. Qed.
End Props.

(** C42: with the documented reading (the first contains the second) the claim is false *)
Theorem C42_contains_refuted : exists (X : Ext) st e1 e2 v1 v2, wf_value v1 /\ wf_value v2 /\
  eval st e1 = Ok v1 /\ eval st e2 = Ok v2 /\ card v1 = Some COrdered /\ card v2 = Some COrdered /\
  infix_of (members v2) (members v1) /\ eval st (EContains [e1; e2]) = Ok (boolean (Some false)).
Proof.
  exists demo, demo_state, (EVariable (lit "A")), (EOrdered [int_lit (lit "1")]).
  eexists _, _. split; [|split; [|split; [vm_compute; reflexivity|split; [vm_compute; reflexivity|]]]].
  - cbn. split; [discriminate|]. repeat (constructor; [eexists; split; [reflexivity|unfold int32; cbn; lia]|]). constructor.
  - cbn. split; [discriminate|]. repeat (constructor; [eexists; split; [reflexivity|unfold int32; cbn; lia]|]). constructor.
  - split; [reflexivity|]. split; [reflexivity|]. split; [|vm_compute; reflexivity].
    exists [], [AInt 2; AInt 1]. reflexivity.
Qed.
(** C43: a literal integer is not checked against the 32-bit range *)
Theorem C43_refuted : exists (X : Ext) st e v, wf_state st /\ eval st e = Ok v /\ ~ wf_value v.
Proof.
  exists demo, (mkState (mkItem [] [] [] false) []), (int_lit (lit "99999999999")). eexists.
  split; [intros n v H; discriminate|]. split; [vm_compute; reflexivity|]. cbn. unfold int32. lia.
Qed.
(** C47: the documentation of matchTable says the first entry *)
Theorem C47_first_refuted : exists (X : Ext) n t0 t1 oa0, target (Some BInteger) t0 oa0 /\
  exists v, MatchLookup (Some BInteger) None [(n, t0); (n, t1)] (integer n) = Ok v /\ v <> VSingle (Some BInteger) oa0.
Proof.
  exists demo, 1, (Some (lit "5")), (Some (lit "6")), (Some (AInt 5)). split.
  - split; [reflexivity|]. intros a E. injection E as <-. exists BInteger. split; [reflexivity|]. cbn. unfold int32. lia.
  - eexists. split; [vm_compute; reflexivity|]. discriminate.
Qed.
(** C82: a relative test on negative numbers fails even on equal operands *)
Theorem C82_relative_refuted : exists (X : Ext) st e, eval st e = Ok (integer (-10)) /\
  eval st (EEqual TRelative [lit "10"] true true [e; e]) = Ok (boolean (Some false)).
Proof.
  exists demo, demo_state, (int_lit (lit "-10")). split; vm_compute; reflexivity.
Qed.
(** C87: copying a multiple container loses repeated members *)
Theorem C87_copy_refuted : exists (X : Ext) v w a, wf_value v /\ CopyValue v = Ok w /\ occurs a w <> occurs a v.
Proof.
  exists demo, (VMultiple (Some BInteger) (Some [(Some (AInt 7), 2)])). eexists. exists (AInt 7).
  split; [|split; [vm_compute; reflexivity|vm_compute; discriminate]].
  cbn. split; [discriminate|]. split; [constructor; [intros []|constructor]|].
  constructor; [|constructor]. split; [reflexivity|]. eexists. split; [reflexivity|]. cbn. unfold int32. lia.
Qed.

(** ** Concrete cases *)
#[local] Existing Instance demo.
Lemma demo_state_wf : wf_state demo_state.
Proof.
  intros n v H. unfold demo_state in H. cbn [s_map] in H. apply assoc_In' in H.
  destruct H as [H|[H|[H|[H|[]]]]]; injection H as _ <-; cbn [wf_value].
  - split; [discriminate|]. repeat (constructor; [eexists; split; [reflexivity|unfold wf_atom, int32; lia]|]). constructor.
  - split; [discriminate|]. split.
    + cbn. constructor; [intros [E|[]]; discriminate|]. constructor; [intros []|constructor].
    + constructor; [|constructor; [|constructor]]; (split; [reflexivity|]; eexists; split; [reflexivity|reflexivity]).
  - exact I.
  - exact I.
Qed.
Example ex_C40 : evaluates demo_state [bool_lit (lit "true"); EVariable (lit "N"); EVariable (lit "U")]
    [boolean (Some true); boolean None; VNull] /\
  Forall2 bool_operand [boolean (Some true); boolean None; VNull] [Some true; None; None] /\
  eval demo_state (EAnd [bool_lit (lit "true"); EVariable (lit "N"); EVariable (lit "U")]) = Ok (boolean None) /\
  eval demo_state (EOr [bool_lit (lit "true"); EVariable (lit "N"); EVariable (lit "U")]) = Ok (boolean (Some true)).
Proof.
  split; [repeat constructor|]. split; [|split; vm_compute; reflexivity].
  constructor; [left; reflexivity|]. constructor; [left; reflexivity|]. constructor; [right; auto|constructor].
Qed.
Example ex_C41 : is_ref (lit "1") = false /\ DecodeInteger (lit "1") = Ok 1 /\
  eval demo_state (EAnyN (Some (lit "1")) (Some (lit "2")) [bool_lit (lit "true"); EVariable (lit "N")]) = Ok (boolean (Some true)) /\
  eval demo_state (EAnyN (Some (lit "1")) (Some (lit "1")) [bool_lit (lit "true"); EVariable (lit "N")]) = Ok (boolean None).
Proof. repeat split; vm_compute; reflexivity. Qed.
Example ex_C42 : Forall (operand_of CMultiple BIdentifier)
    [VMultiple (Some BIdentifier) (Some [(Some (AIdent (lit "X")), 2); (Some (AIdent (lit "Y")), 1)]);
     VSingle (Some BIdentifier) (Some (AIdent (lit "X"))); VNull] /\
  eval demo_state (EContainerSize (EMultiple [EVariable (lit "B"); id_lit (lit "X"); ENull])) = Ok (integer 4) /\
  eval demo_state (EContainerSize (EDelete [id_lit (lit "X"); EVariable (lit "B")])) = Ok (integer 1) /\
  eval demo_state (EMember [id_lit (lit "Y"); EVariable (lit "B")]) = Ok (boolean (Some true)) /\
  eval demo_state (EIndex (Some 2) (EVariable (lit "A"))) = Ok (integer 2).
Proof.
  split; [|repeat split; vm_compute; reflexivity].
  constructor; [right; cbn; auto|]. constructor; [right; cbn; auto|]. constructor; [left; cbn; split; [reflexivity|discriminate]|constructor].
Qed.
Example ex_C43 : wf_state demo_state /\ literals_ok (ESum [int_lit (lit "3"); EIndex (Some 2) (EVariable (lit "A"))]) /\
  eval demo_state (ESum [int_lit (lit "3"); EIndex (Some 2) (EVariable (lit "A"))]) = Ok (integer 5).
Proof.
  split; [apply demo_state_wf|]. split; [|vm_compute; reflexivity].
  cbn [literals_ok int_lit]. split; [|split; [exact I|exact I]]. intros n H. vm_compute in H. injection H as <-. unfold int32. lia.
Qed.
Example ex_C44 : mentions (EAnd [EVariable (lit "N"); ENot (EVariable (lit "U"))]) = [lit "N"; lit "U"].
Proof. reflexivity. Qed.
Example ex_C45 : eval demo_state (EIntegerDivide [int_lit (lit "-7"); int_lit (lit "2")]) = Ok (integer (-4)) /\
  eval demo_state (EIntegerModulus [int_lit (lit "-7"); int_lit (lit "2")]) = Ok (integer 1).
Proof. split; vm_compute; reflexivity. Qed.
Example ex_C46 : build_map (Some BIdentifier) [] [(Some (lit "X"), qz 3); (Some (lit "Y"), qz 4); (Some (lit "X"), qz 5)] =
    Ok [(Some (AIdent (lit "X")), qz 5); (Some (AIdent (lit "Y")), qz 4)] /\
  exists r, MapValue (mkMapping (Some (qz 0)) (Some (qz 8)) (qz 0)
     [(Some (AIdent (lit "X")), qz 5); (Some (AIdent (lit "Y")), qz 4)])
     (VMultiple (Some BIdentifier) (Some [(Some (AIdent (lit "X")), 2); (Some (AIdent (lit "Y")), 1)])) =
     Ok (VSingle (Some BFloat) (Some (AFloat r))) /\ Qc_eq_bool r (qz 8) = true.
Proof. split; [reflexivity|]. eexists. split; [reflexivity|]. vm_compute. reflexivity. Qed.
Example ex_C47 : source (integer 5) (qz 5) /\ target (Some BInteger) (Some (lit "7")) (Some (AInt 7)) /\
  InterpLookup (Some BInteger) None [(qz 9, true, Some (lit "1")); (qz 5, false, Some (lit "2")); (qz 5, true, Some (lit "7")); (qz 0, true, Some (lit "4"))]
    (integer 5) = Ok (integer 7) /\
  MatchLookup (Some BInteger) (Some (lit "0")) [(4, Some (lit "1")); (5, Some (lit "7"))] (integer 5) = Ok (integer 7).
Proof.
  split; [left; left; eexists; split; reflexivity|]. split.
  - split; [reflexivity|]. intros a E. injection E as <-. exists BInteger. split; [reflexivity|]. cbn. unfold int32. lia.
  - split; vm_compute; reflexivity.
Qed.
Example ex_C82 : number (integer 5) (qz 5) /\ x_double (lit "2") = Ok (qz 2) /\
  eval demo_state (EEqual TAbsolute [lit "2"; lit "2"] false true [int_lit (lit "5"); int_lit (lit "7")]) = Ok (boolean (Some true)) /\
  eval demo_state (EEqual TAbsolute [lit "2"; lit "2"] false true [int_lit (lit "5"); int_lit (lit "3")]) = Ok (boolean (Some false)).
Proof. split; [left; eexists; split; reflexivity|]. repeat split; vm_compute; reflexivity. Qed.
Example ex_C83 : evaluates demo_state [int_lit (lit "2"); int_lit (lit "3"); int_lit (lit "4")] (map integer [2; 3; 4]) /\
  eval demo_state (ESum [int_lit (lit "2"); int_lit (lit "3"); int_lit (lit "4")]) = Ok (integer 9) /\
  eval demo_state (EProduct [int_lit (lit "2"); int_lit (lit "3"); int_lit (lit "4")]) = Ok (integer 24).
Proof. split; [repeat constructor|]. split; vm_compute; reflexivity. Qed.
Example ex_C84 : exists q, eval demo_state (EDivide [int_lit (lit "-5"); int_lit (lit "2")]) =
    Ok (VSingle (Some BFloat) (Some (AFloat q))) /\
  eval demo_state (ERound (EDivide [int_lit (lit "-5"); int_lit (lit "2")])) = Ok (integer (-2)) /\
  eval demo_state (ETruncate (EDivide [int_lit (lit "-5"); int_lit (lit "2")])) = Ok (integer (-2)).
Proof. eexists. split; [reflexivity|]. split; vm_compute; reflexivity. Qed.
Example ex_C85 : eval demo_state (ECompare OpGTE [int_lit (lit "5"); int_lit (lit "5")]) = Ok (boolean (Some true)) /\
  eval demo_state (ECompare OpGT [int_lit (lit "5"); int_lit (lit "5")]) = Ok (boolean (Some false)).
Proof. split; vm_compute; reflexivity. Qed.
Example ex_C86 : eval demo_state (EMatch [EVariable (lit "B"); EMultiple [id_lit (lit "Y"); id_lit (lit "X"); id_lit (lit "X")]]) =
    Ok (boolean (Some true)) /\
  eval demo_state (EMatch [EVariable (lit "B"); EMultiple [id_lit (lit "Y"); id_lit (lit "X")]]) = Ok (boolean (Some false)).
Proof. split; vm_compute; reflexivity. Qed.
Example ex_C87 : CopyValue (VOrdered (Some BInteger) (Some [Some (AInt 1); Some (AInt 1)])) =
  Ok (VOrdered (Some BInteger) (Some [Some (AInt 1); Some (AInt 1)])).
Proof. reflexivity. Qed.

Print Assumptions C40_and. Print Assumptions C40_or. Print Assumptions C40_not. Print Assumptions C40_operands.
Print Assumptions C41_anyn. Print Assumptions C42_multiple. Print Assumptions C42_ordered. Print Assumptions C42_delete.
Print Assumptions C42_delete_null. Print Assumptions C42_member. Print Assumptions C42_contains_partial.
Print Assumptions C42_contains_refuted. Print Assumptions C42_size. Print Assumptions C42_index.
Print Assumptions C43_type_sound_partial. Print Assumptions C43_refuted. Print Assumptions C44_reads_partial.
Print Assumptions C45_divide_partial. Print Assumptions C45_zero. Print Assumptions C45_refuted.
Print Assumptions C46_map. Print Assumptions C46_bounds. Print Assumptions C46_order_irrelevant. Print Assumptions C46_null.
Print Assumptions C47_interpolation. Print Assumptions C47_match. Print Assumptions C47_null. Print Assumptions C47_first_refuted.
Print Assumptions C82_exact. Print Assumptions C82_absolute. Print Assumptions C82_one_tolerance.
Print Assumptions C82_relative_partial. Print Assumptions C82_relative_refuted. Print Assumptions C83_integers.
Print Assumptions C83_floats. Print Assumptions C83_subtract. Print Assumptions C83_divide. Print Assumptions C84_round.
Print Assumptions C84_truncate. Print Assumptions C84_integer_to_float. Print Assumptions C85_compare.
Print Assumptions C85_durations. Print Assumptions C86_match. Print Assumptions C87_copy_partial.
Print Assumptions C87_copy_record. Print Assumptions C87_copy_refuted.
