(** Arithmetic, comparisons, mappings and lookup tables. *)
From Coq Require Import QArith Qcanon Qround Permutation Lqa.
From Verif Require Import Py Dec XmlUtils Xsd XsdSpec XsdProofs XsdProofs2 QtiValue QtiExpr QtiSpec
  QtiProofs QtiProofs2 QtiProofs3 QtiProofs4.
Open Scope Z_scope.
Open Scope list_scope.

Section P.
Context {X : Ext}.

Lemma Forall2_length {A B} (R : A -> B -> Prop) l m : Forall2 R l m -> length m = length l.
Proof. induction 1; cbn; congruence. Qed.

(** ** Integer division *)
Lemma floor_spec (q : Q) (j : Z) : (inject_Z j <= q)%Q <-> j <= Qfloor q.
Proof.
  split.
  - intros H. apply Qfloor_resp_le in H. rewrite Qfloor_Z in H. exact H.
  - intros H. apply Qle_trans with (inject_Z (Qfloor q)); [|apply Qfloor_le].
    rewrite <- Zle_Qle. exact H.
Qed.
Lemma op_integer_ok f x y : y <> 0 -> op_integer f [integer x; integer y] = mkint (Some (f x y)).
Proof. intros H. unfold op_integer, integer. cbn. destruct (y =? 0) eqn:E; [lia|reflexivity]. Qed.
Lemma op_integer_zero f x : op_integer f [integer x; integer 0] = Ok (VSingle (Some BInteger) None).
Proof. reflexivity. Qed.
Lemma div_range x y : int32 x -> int32 y -> y <> 0 -> ~ (x = -2147483648 /\ y = -1) -> int32 (x / y).
Proof.
  unfold int32. intros Hx Hy H0 Hb.
  destruct (Z_lt_le_dec 0 y).
  - assert (x / y <= 2147483647) by (apply Z.div_le_upper_bound; nia).
    assert (-2147483648 <= x / y) by (apply Z.div_le_lower_bound; nia). lia.
  - replace (x / y) with ((- x) / (- y)) by (apply Z.div_opp_opp; lia).
    assert (-2147483648 <= - x / - y) by (apply Z.div_le_lower_bound; nia).
    assert (- x / - y < 2147483648) by (apply Z.div_lt_upper_bound; nia). lia.
Qed.
Lemma mod_range x y : int32 y -> y <> 0 -> int32 (x mod y).
Proof.
  unfold int32. intros Hy H0. destruct (Z_lt_le_dec 0 y).
  - pose proof (Z.mod_pos_bound x y ltac:(lia)). lia.
  - pose proof (Z.mod_neg_bound x y ltac:(lia)). lia.
Qed.
Lemma mkint_ok n : int32 n -> mkint (Some n) = Ok (integer n).
Proof. intros H. apply in_range_iff in H. cbn [mkint]. rewrite H. reflexivity. Qed.

(** ** Numbers *)
Lemma number_base v x : number v x -> base v = Some BInteger \/ base v = Some BFloat.
Proof. intros [(n & -> & _)| ->]; cbn; auto. Qed.
Lemma number_card v x : number v x -> card v = Some CSingle.
Proof. intros [(n & -> & _)| ->]; reflexivity. Qed.
Lemma number_float v x : number v x -> to_float v = Ok x.
Proof. intros [(n & -> & ->)| ->]; reflexivity. Qed.
Lemma number_nn v x : number v x -> non_null v = true.
Proof. intros [(n & -> & ->)| ->]; reflexivity. Qed.
Lemma two_numbers_ok v1 v2 x y : number v1 x -> number v2 y ->
  exists b, two_numbers [v1; v2] = Ok (Some b, v1, v2) /\
    (b = BInteger /\ (exists m n, v1 = integer m /\ v2 = integer n /\ x = qz m /\ y = qz n) \/ b = BFloat).
Proof.
  intros [(n & -> & ->)| ->] [(m & -> & ->)| ->]; cbn; eexists; (split; [reflexivity|]); auto.
  left. split; [reflexivity|]. exists n, m. auto.
Qed.
Lemma op_compare_ok op v1 v2 x y : number v1 x -> number v2 y ->
  exists r, op_compare op [v1; v2] = Ok (boolean (Some r)) /\ (r = true <-> related op x y).
Proof.
  intros H1 H2. unfold op_compare. destruct (two_numbers_ok _ _ _ _ H1 H2) as (b & -> & _). cbn [bind].
  rewrite (number_nn _ _ H1), (number_nn _ _ H2), (number_float _ _ H1), (number_float _ _ H2). cbn [andb bind].
  eexists. split; [reflexivity|]. destruct op; cbn [cmp_qc related]; first [apply qc_ltb_lt | apply qc_leb_le].
Qed.
Lemma op_duration_ok op x y :
  exists r, op_duration op [VSingle (Some BDuration) (Some (AFloat x)); VSingle (Some BDuration) (Some (AFloat y))]
     = Ok (boolean (Some r)) /\ (r = true <-> related op x y).
Proof.
  eexists. split; [reflexivity|]. destruct op; cbn [cmp_qc related]; first [apply qc_ltb_lt | apply qc_leb_le].
Qed.
Lemma op_equal_exact tol li ui v1 v2 x y : number v1 x -> number v2 y ->
  exists r, op_equal TExact tol li ui [v1; v2] = Ok (boolean (Some r)) /\ (r = true <-> x = y).
Proof.
  intros H1 H2. unfold op_equal. destruct (two_numbers_ok _ _ _ _ H1 H2) as (b & -> & _). cbn [bind].
  rewrite (number_nn _ _ H1), (number_nn _ _ H2), (number_float _ _ H1), (number_float _ _ H2). cbn [andb bind].
  eexists. split; [reflexivity|]. apply qc_eqb_eq.
Qed.
Lemma op_equal_tol mode s0 rest t0 t1 li ui v1 v2 x y : mode <> TExact -> number v1 x -> number v2 y ->
  is_ref s0 = false -> x_double s0 = Ok t0 ->
  (rest = [] /\ t1 = t0 \/ exists s1 l, rest = s1 :: l /\ is_ref s1 = false /\ x_double s1 = Ok t1) ->
  op_equal mode (s0 :: rest) li ui [v1; v2] =
  Ok (boolean (Some (let '(lo, hi) := bounds mode x t0 t1 in within li ui lo hi y))).
Proof.
  intros Hm H1 H2 Hr Ht Hrest. unfold op_equal. destruct (two_numbers_ok _ _ _ _ H1 H2) as (b & -> & _). cbn [bind].
  rewrite (number_nn _ _ H1), (number_nn _ _ H2), (number_float _ _ H1), (number_float _ _ H2). cbn [andb bind].
  unfold FloatOrTemplateRef. rewrite Hr, Ht.
  destruct mode; try congruence; destruct Hrest as [[-> ->]|(s1 & l & -> & Hr1 & Ht1)]; cbn [bind];
    try rewrite Hr1, Ht1; reflexivity.
Qed.
Lemma within_iff li ui lo hi y : within li ui lo hi y = true <->
  ((if li : bool then Qcle lo y else Qclt lo y) /\ (if ui : bool then Qcle y hi else Qclt y hi)).
Proof.
  unfold within. rewrite andb_true_iff. destruct li, ui; rewrite ?qc_leb_le, ?qc_ltb_lt; tauto.
Qed.

(** ** Sums and products *)
Lemma num_float_fold op vs xs : Forall2 number vs xs -> forall acc,
  num_loop to_float op acc vs = Ok (Some (fold_left op xs acc)).
Proof.
  induction 1 as [|v x vs xs Hv H IH]; intros acc; cbn [num_loop fold_left]; [reflexivity|].
  rewrite (number_nn _ _ Hv), (number_float _ _ Hv). cbn [bind]. apply IH.
Qed.
Lemma num_int_fold op ns : forall acc, num_loop to_int op acc (map integer ns) = Ok (Some (fold_left op ns acc)).
Proof. induction ns as [|n ns IH]; intros acc; cbn; [reflexivity|]. apply IH. Qed.
Lemma cards_single vs : (forall v, In v vs -> card v = Some CSingle \/ card v = None) ->
  CheckCardinalities (map card vs ++ [Some CSingle]) = Ok (Some CSingle).
Proof.
  intros H. unfold CheckCardinalities. rewrite (check_cards_all CSingle); [| |auto].
  - rewrite <- app_comm_cons || idtac. cbn [existsb]. rewrite existsb_app. cbn. rewrite !orb_true_r. reflexivity.
  - intros x Hx. apply in_app_or in Hx as [Hx|[<-|[]]]; [|auto]. apply in_map_iff in Hx as (v & <- & Hv).
    destruct (H v Hv); auto.
Qed.
Lemma numeric_ints ns : ns <> [] -> CheckNumericalTypes (map base (map integer ns)) = Ok (Some BInteger).
Proof.
  unfold CheckNumericalTypes. destruct ns as [|n ns]; [congruence|]. intros _. cbn.
  induction ns as [|m ns IH]; cbn; [reflexivity|exact IH].
Qed.
Lemma numeric_loop_float vs xs : Forall2 number vs xs -> check_numeric (Some BFloat) (map base vs) = Ok (Some BFloat).
Proof.
  induction 1 as [|v x vs xs Hv H IH]; cbn [map check_numeric]; [reflexivity|].
  destruct (number_base _ _ Hv) as [->| ->]; cbn; exact IH.
Qed.
Lemma numeric_mixed vs xs : Forall2 number vs xs -> (exists v, In v vs /\ base v = Some BFloat) ->
  forall ret, (ret = None \/ ret = Some BInteger) -> check_numeric ret (map base vs) = Ok (Some BFloat).
Proof.
  induction 1 as [|v x vs xs Hv H IH]; intros (w & Hw & Eb) ret Hret; [destruct Hw|].
  cbn [map check_numeric]. destruct (base v) as [b|] eqn:E.
  - destruct (number_base _ _ Hv) as [E2|E2]; rewrite E in E2; injection E2 as ->; cbn [numeric negb].
    + destruct Hw as [->|Hw]; [congruence|].
      destruct Hret as [->| ->]; cbn [baseType_eqb]; apply IH; eauto.
    + destruct Hret as [->| ->]; cbn [baseType_eqb]; eapply numeric_loop_float; exact H.
  - destruct (number_base _ _ Hv) as [E2|E2]; congruence.
Qed.
Lemma op_fold_ints zop zu qop qu ns : ns <> [] ->
  op_fold zop zu qop qu (map integer ns) = mkint (Some (fold_left zop ns zu)).
Proof.
  intros Hn. unfold op_fold. destruct (map integer ns) as [|v vs] eqn:E; [destruct ns; [congruence|discriminate]|].
  rewrite <- E. clear E v vs. rewrite cards_single, numeric_ints by
    (try exact Hn; intros v Hv; apply in_map_iff in Hv as (n & <- & _); auto).
  cbn [bind]. rewrite num_int_fold. reflexivity.
Qed.
Lemma op_fold_floats zop zu qop qu vs xs : Forall2 number vs xs -> (exists v, In v vs /\ base v = Some BFloat) ->
  op_fold zop zu qop qu vs = Ok (VSingle (Some BFloat) (Some (AFloat (fold_left qop xs qu)))).
Proof.
  intros H Hf. unfold op_fold. destruct vs as [|v vs]; [destruct Hf as (w & [] & _)|].
  remember (v :: vs) as l. clear Heql v vs.
  rewrite cards_single.
  2:{ clear Hf. induction H as [|v x l xs Hv H IH]; intros w [].
      - subst. left. eapply number_card; exact Hv.
      - apply IH. assumption. }
  unfold CheckNumericalTypes. rewrite (numeric_mixed _ _ H Hf None) by auto. cbn [bind].
  rewrite (num_float_fold _ _ _ H). reflexivity.
Qed.
Lemma fold_left_zadd l : forall a, fold_left Z.add l a = a + zsum l.
Proof. induction l as [|x l IH]; intros a; cbn [fold_left zsum fold_right]; [lia|]. rewrite IH. fold (zsum l). lia. Qed.
Lemma fold_left_zmul l : forall a, fold_left Z.mul l a = a * zprod l.
Proof. induction l as [|x l IH]; intros a; cbn [fold_left zprod fold_right]; [lia|]. rewrite IH. fold (zprod l). lia. Qed.
Lemma fold_left_qadd l : forall a, fold_left Qcplus l a = Qcplus a (qsum l).
Proof.
  induction l as [|x l IH]; intros a; cbn [fold_left qsum fold_right].
  - rewrite Qcplus_0_r. reflexivity.
  - rewrite IH. fold (qsum l). rewrite Qcplus_assoc. reflexivity.
Qed.
Lemma fold_left_qmul l : forall a, fold_left Qcmult l a = Qcmult a (qprod l).
Proof.
  induction l as [|x l IH]; intros a; cbn [fold_left qprod fold_right].
  - unfold q1. change (Q2Qc 1) with 1%Qc. rewrite Qcmult_1_r. reflexivity.
  - rewrite IH. fold (qprod l). rewrite Qcmult_assoc. reflexivity.
Qed.
(** a NULL operand *)
Lemma num_loop_null {A} conv (op : A -> A -> A) l1 v l2 : forall acc,
  (forall w, In w l1 -> non_null w = true -> exists x, conv w = Ok x) -> non_null v = false ->
  num_loop conv op acc (l1 ++ v :: l2) = Ok None.
Proof.
  induction l1 as [|w l1 IH]; intros acc Hc Hv; cbn [num_loop app].
  - rewrite Hv. reflexivity.
  - destruct (non_null w) eqn:E; [|reflexivity].
    destruct (Hc w (or_introl eq_refl) E) as [x ->]. cbn [bind]. apply IH; [|exact Hv]. intros u Hu. apply Hc. right; exact Hu.
Qed.

(** ** Rounding *)
Lemma trunc_spec (q : Qc) : let n := qc_trunc q in
  (0 <= q -> inject_Z n <= q /\ q < inject_Z (n + 1))%Q /\
  (q <= 0 -> q <= inject_Z n /\ inject_Z (n - 1) < q)%Q.
Proof.
  unfold qc_trunc. destruct q as [[n d] Hc]. cbn [this Qnum Qden].
  unfold Qle, Qlt, inject_Z. cbn [Qnum Qden]. rewrite !Z.mul_1_r.
  split; intros H.
  - rewrite Z.quot_div_nonneg by lia. pose proof (Z.mul_div_le n (Zpos d) ltac:(lia)).
    pose proof (Z.mul_succ_div_gt n (Zpos d) ltac:(lia)). split; nia.
  - assert (E : Z.quot n (Zpos d) = - ((- n) / Zpos d)).
    { rewrite <- (Z.opp_involutive n) at 1. rewrite Z.quot_opp_l by lia. f_equal. apply Z.quot_div_nonneg; lia. }
    rewrite E. pose proof (Z.mul_div_le (-n) (Zpos d) ltac:(lia)).
    pose proof (Z.mul_succ_div_gt (-n) (Zpos d) ltac:(lia)). split; nia.
Qed.
Lemma round_spec (q : Qc) : let n := qc_floor (Qcplus q half) in
  (inject_Z n - (1 # 2) <= q)%Q /\ (q < inject_Z n + (1 # 2))%Q.
Proof.
  unfold qc_floor. cbn zeta.
  assert (E : (this (Qcplus q half) == q + (1#2))%Q).
  { unfold Qcplus. cbn [this Q2Qc]. rewrite Qred_correct. unfold half. cbn [this Q2Qc]. rewrite Qred_correct. reflexivity. }
  rewrite E. pose proof (Qfloor_le (q + (1#2))) as H1. pose proof (Qlt_floor (q + (1#2))) as H2.
  rewrite inject_Z_plus in H2. change (inject_Z 1) with 1%Q in H2. split; lra.
Qed.

(** ** Mappings *)
Lemma build_map_get bt entries : forall keys acc m,
  Forall2 (fun (e : option str * Qc) k => new_single bt (option_map RText (fst e)) = Ok (VSingle bt k)) entries keys ->
  build_map bt acc entries = Ok m ->
  forall k, aget k m = match last_entry oatom_eqb k (combine keys (map snd entries)) with
                       | Some q => Some q | None => aget k acc end.
Proof.
  induction entries as [|[t q] es IH]; intros keys acc m HF H k; inversion HF as [|x k0 l ks Hx Hl]; subst; cbn [build_map] in H.
  - injection H as <-. reflexivity.
  - cbn [fst] in Hx. rewrite Hx in H. cbn [bind] in H. cbn [map snd combine last_entry].
    rewrite (IH ks _ m Hl H k). destruct (last_entry _ _ _); [reflexivity|].
    rewrite aget_aset. destruct (oatom_eqb k k0); reflexivity.
Qed.
Lemma build_map_ok bt entries : forall keys acc,
  Forall2 (fun (e : option str * Qc) k => new_single bt (option_map RText (fst e)) = Ok (VSingle bt k)) entries keys ->
  exists m, build_map bt acc entries = Ok m.
Proof.
  induction entries as [|[t q] es IH]; intros keys acc HF; inversion HF as [|x k0 l ks Hx Hl]; subst; cbn [build_map].
  - eauto.
  - cbn [fst] in Hx. rewrite Hx. cbn [bind]. eapply IH. exact Hl.
Qed.
Definition score (m : list (option atom * Qc)) (d : Qc) (a : atom) : Qc :=
  match aget (Some a) m with Some q => q | None => d end.
(** the distinct members of a list, in order of first occurrence *)
Fixpoint firsts (been : list atom) (l : list atom) : list atom :=
  match l with
  | [] => []
  | a :: l' => if in_dec atom_eq_dec a been then firsts been l' else a :: firsts (a :: been) l'
  end.
Lemma map_loop_firsts m d l : forall been acc,
  map_loop m d (map Some been) acc (map Some l) = fold_left Qcplus (map (score m d) (firsts been l)) acc.
Proof.
  induction l as [|a l IH]; intros been acc; cbn [map map_loop firsts]; [reflexivity|].
  destruct (existsb (oatom_eqb (Some a)) (map Some been)) eqn:E.
  - apply existsb_oatom in E. apply in_map_iff in E as (x & Ex & Hx). injection Ex as ->.
    destruct (in_dec atom_eq_dec a been); [|contradiction]. apply IH.
  - destruct (in_dec atom_eq_dec a been) as [Hin|Hin].
    + exfalso. assert (In (Some a) (map Some been)) by (apply in_map; exact Hin).
      apply existsb_oatom in H. congruence.
    + cbn [map fold_left]. rewrite <- IH. reflexivity.
Qed.
Lemma firsts_In l : forall been a, In a (firsts been l) <-> In a l /\ ~ In a been.
Proof.
  induction l as [|x l IH]; intros been a; cbn [firsts]; [cbn; tauto|].
  destruct (in_dec atom_eq_dec x been) as [Hx|Hx].
  - rewrite IH. cbn. intuition (subst; contradiction).
  - cbn [In]. rewrite IH. cbn [In]. destruct (atom_eq_dec x a) as [->|N]; intuition congruence.
Qed.
Lemma firsts_NoDup l : forall been, NoDup (firsts been l).
Proof.
  induction l as [|x l IH]; intros been; cbn [firsts]; [constructor|].
  destruct (in_dec atom_eq_dec x been); [apply IH|]. constructor; [|apply IH].
  rewrite firsts_In. cbn. tauto.
Qed.
Lemma qsum_perm l l' : Permutation l l' -> qsum l = qsum l'.
Proof.
  induction 1 as [|x l l' H IH|x y l|l l' l'' H1 IH1 H2 IH2]; cbn [qsum fold_right]; auto.
  - fold (qsum l). fold (qsum l'). rewrite IH. reflexivity.
  - fold (qsum l). rewrite !Qcplus_assoc. rewrite (Qcplus_comm x y). reflexivity.
  - congruence.
Qed.
Lemma clamp_bounded lo hi q : bounded lo hi q (clamp lo hi q).
Proof.
  unfold clamp, bounded. destruct lo as [l|].
  - destruct (qc_ltb q l) eqn:E1.
    + right; left. split; [reflexivity|]. apply qc_ltb_lt. exact E1.
    + apply qc_ltb_nlt in E1. destruct hi as [u|].
      * destruct (qc_ltb u q) eqn:E2.
        -- right; right. split; [reflexivity|]. apply qc_ltb_lt. exact E2.
        -- apply qc_ltb_nlt in E2. left. split; [reflexivity|]. split; intros z Hz; injection Hz as <-; assumption.
      * left. split; [reflexivity|]. split; intros z Hz; [injection Hz as <-; assumption|discriminate].
  - destruct hi as [u|].
    + destruct (qc_ltb u q) eqn:E2.
      * right; right. split; [reflexivity|]. apply qc_ltb_lt. exact E2.
      * apply qc_ltb_nlt in E2. left. split; [reflexivity|]. split; intros z Hz; [discriminate|injection Hz as <-; assumption].
    + left. split; [reflexivity|]. split; intros z Hz; discriminate.
Qed.
Lemma src_values_members b v : wf_value v -> base v = Some b -> non_null v = true ->
  exists l, src_values v = Ok (map Some l) /\ (forall a, In a l <-> In a (members v)).
Proof.
  intros Hw Hb Hn. unfold src_values. rewrite Hn. cbn [negb].
  destruct v as [|bt|bt [x|]|bt [l|]|bt [m|]|[l|]]; cbn in Hb, Hn; try discriminate; subst bt.
  - exists [x]. split; [reflexivity|]. tauto.
  - exists (somes l). split; [|tauto]. f_equal. exact (GetValues_somes b _ Hw eq_refl).
  - exists (somes (map fst m)). pose proof (value_bag _ _ Hw) as Hbag. destruct Hbag as [Hnd Hf]. split.
    + f_equal. clear - Hf. induction Hf as [|[k n] m [Hpos (a & Ek & Ha)] Hf IH]; cbn; [reflexivity|].
      cbn in Ek. subst k. cbn. rewrite <- IH. reflexivity.
    + intros a. cbn [members]. clear - Hf. induction Hf as [|[k n] m [Hpos (a' & Ek & Ha)] Hf IH]; cbn [map somes flat_map fst snd]; [tauto|].
      cbn [fst snd] in Ek, Hpos. subst k. rewrite somes_app, somes_repeat. rewrite in_app_iff, <- IH. cbn [somes In].
      split; intros [H|H]; auto.
      * left. subst. destruct (Z.to_nat n) eqn:E; [lia|]. left; reflexivity.
      * left. apply repeat_spec in H. auto.
Qed.
Lemma MapValue_ok mp b v : wf_value v -> base v = Some b -> non_null v = true ->
  exists r, MapValue mp v = Ok (VSingle (Some BFloat) (Some (AFloat r))) /\
    bounded (m_lower mp) (m_upper mp)
      (qsum (map (score (m_map mp) (m_default mp)) (nodup atom_eq_dec (members v)))) r.
Proof.
  intros Hw Hb Hn. unfold MapValue. destruct (src_values_members b v Hw Hb Hn) as (l & -> & Hl).
  cbn [bind]. rewrite Hn, Hb. cbn [negb orb]. eexists. split; [reflexivity|].
  change (@nil (option atom)) with (map (@Some atom) []). rewrite map_loop_firsts.
  rewrite fold_left_qadd. unfold q0. change (Q2Qc 0) with 0%Qc. rewrite Qcplus_0_l.
  assert (E : qsum (map (score (m_map mp) (m_default mp)) (firsts [] l)) =
              qsum (map (score (m_map mp) (m_default mp)) (nodup atom_eq_dec (members v)))).
  { apply qsum_perm. apply Permutation_map. apply NoDup_Permutation; [apply firsts_NoDup|apply NoDup_nodup|].
    intros a. rewrite firsts_In, nodup_In, Hl. cbn. tauto. }
  rewrite E. apply clamp_bounded.
Qed.

(** ** Lookup tables *)
Lemma interp_table_ok bt entries oas :
  Forall2 (fun (e : Qc * bool * option str) oa => target bt (snd e) oa) entries oas ->
  interp_table bt entries = Ok (combine (map fst entries) oas).
Proof.
  induction 1 as [|[[q lte] t] oa es oas [Ht _] H IH]; cbn [interp_table]; [reflexivity|].
  cbn [snd] in Ht. rewrite Ht. cbn [bind]. rewrite IH. reflexivity.
Qed.
Lemma set_target bt t oa oa0 : target bt t oa ->
  finish (set_value (VSingle bt oa0) (opayload oa)) = Ok (VSingle bt oa).
Proof.
  intros [_ Hw]. destruct oa as [a|].
  - destruct (Hw a eq_refl) as (b & -> & Ha). cbn [opayload]. rewrite set_single_raw by exact Ha. reflexivity.
  - destruct bt as [[]|]; reflexivity.
Qed.
Lemma target_none bt t oa : target bt t oa -> new_single bt None = Ok (VSingle bt None).
Proof. intros [H _]. destruct bt as [[]|]; try reflexivity. cbn in H. discriminate. Qed.
Lemma interp_src v x : source v x -> non_null v = true /\
  match v with
  | VSingle (Some BInteger) (Some (AInt n)) => Ok (qz n)
  | VSingle (Some BFloat) (Some (AFloat q)) => Ok q
  | VSingle (Some BDuration) (Some (AFloat q)) => Ok q
  | _ => Err ValueError
  end = Ok x.
Proof. intros [[(n & -> & ->)| ->]| ->]; cbn; auto. Qed.
Lemma applies_hit x (e : Qc * bool * option str) : applies x e <->
  (let '(q, lte, _) := e in qc_ltb q x || (lte && qc_eqb q x)) = true.
Proof.
  destruct e as [[q lte] t]. cbn. rewrite orb_true_iff, andb_true_iff, qc_ltb_lt, qc_eqb_eq. tauto.
Qed.
Lemma interp_find_none x entries : forall oas, length oas = length entries -> Forall (fun e => ~ applies x e) entries ->
  interp_find x (combine (map fst entries) oas) = None.
Proof.
  induction entries as [|[[q lte] t] es IH]; intros [|oa oas] Hlen H; cbn [map fst combine interp_find]; try discriminate; [reflexivity|].
  inversion H as [|y l Hy Hl]; subst. rewrite applies_hit in Hy.
  destruct (_ || _); [exfalso; apply Hy; reflexivity|]. apply IH; [injection Hlen; auto|exact Hl].
Qed.
Lemma interp_find_some x pre e post oas1 oa oas2 : length oas1 = length pre ->
  Forall (fun e => ~ applies x e) pre -> applies x e ->
  interp_find x (combine (map fst (pre ++ e :: post)) (oas1 ++ oa :: oas2)) = Some oa.
Proof.
  revert oas1. induction pre as [|[[q lte] t] pre IH]; intros [|oa1 oas1] Hlen Hp He; cbn in Hlen; try discriminate.
  - cbn [app map combine]. destruct e as [[q lte] t]. cbn [fst interp_find]. rewrite applies_hit in He. rewrite He. reflexivity.
  - cbn [app map combine fst interp_find]. inversion Hp as [|y l Hy Hl]; subst. rewrite applies_hit in Hy.
    destruct (_ || _); [exfalso; apply Hy; reflexivity|]. apply IH; [injection Hlen; auto|exact Hl|exact He].
Qed.
Lemma InterpLookup_hit bt dflt d pre e post oas v x : source v x ->
  target bt dflt d -> Forall2 (fun e oa => target bt (snd e) oa) (pre ++ e :: post) oas ->
  Forall (fun e => ~ applies x e) pre -> applies x e ->
  exists oa, InterpLookup bt dflt (pre ++ e :: post) v = Ok (VSingle bt oa) /\ target bt (snd e) oa.
Proof.
  intros Hs Hd HF Hp He. unfold InterpLookup. destruct (interp_src _ _ Hs) as [Hn Hm].
  unfold table_default. rewrite (proj1 Hd). cbn [bind]. rewrite (interp_table_ok _ _ _ HF). cbn [bind].
  rewrite Hn. cbn [negb]. rewrite Hm. cbn [bind]. rewrite (target_none _ _ _ Hd). cbn [bind single_atom].
  rewrite (set_target _ _ _ _ Hd). cbn [bind].
  apply Forall2_app_inv_l in HF as (oas1 & r & H1 & H2 & ->). inversion H2 as [|y oa l oas2 He2 H3]; subst.
  apply Forall2_length in H1. rewrite (interp_find_some x pre e post oas1 oa oas2) by auto.
  rewrite (set_target _ _ _ _ He2). eauto.
Qed.
Lemma InterpLookup_miss bt dflt d entries oas v x : source v x ->
  target bt dflt d -> Forall2 (fun e oa => target bt (snd e) oa) entries oas ->
  Forall (fun e => ~ applies x e) entries ->
  InterpLookup bt dflt entries v = Ok (VSingle bt d).
Proof.
  intros Hs Hd HF Hp. unfold InterpLookup. destruct (interp_src _ _ Hs) as [Hn Hm].
  unfold table_default. rewrite (proj1 Hd). cbn [bind]. rewrite (interp_table_ok _ _ _ HF). cbn [bind].
  rewrite Hn. cbn [negb]. rewrite Hm. cbn [bind]. rewrite (target_none _ _ _ Hd). cbn [bind single_atom].
  rewrite (set_target _ _ _ _ Hd). cbn [bind].
  apply Forall2_length in HF. rewrite interp_find_none by auto. reflexivity.
Qed.
Lemma zget_zset {A} k k' (x : A) m : zget k (zset k' x m) = if k =? k' then Some x else zget k m.
Proof.
  induction m as [|[k0 y] m IH]; cbn [zset zget]; [reflexivity|].
  destruct (k' =? k0) eqn:E; cbn [zget].
  - apply Z.eqb_eq in E. subst k0. destruct (k =? k'); reflexivity.
  - rewrite IH. destruct (k =? k0) eqn:E2; [|reflexivity]. destruct (k =? k') eqn:E3; [|reflexivity]. lia.
Qed.
Lemma match_map_get bt entries oas : Forall2 (fun (e : Z * option str) oa => target bt (snd e) oa) entries oas ->
  forall acc, exists m, match_map bt acc entries = Ok m /\
    forall k, zget k m = match last_entry Z.eqb k (combine (map fst entries) oas) with
                         | Some oa => Some oa | None => zget k acc end.
Proof.
  induction 1 as [|[k0 t] oa es oas [Ht _] H IH]; intros acc; cbn [match_map].
  - exists acc. split; [reflexivity|]. reflexivity.
  - cbn [snd] in Ht. rewrite Ht. cbn [bind single_atom]. destruct (IH (zset k0 oa acc)) as (m & -> & Hm).
    exists m. split; [reflexivity|]. intros k. rewrite Hm. cbn [map fst combine last_entry].
    destruct (last_entry _ _ _); [reflexivity|]. rewrite zget_zset. destruct (k =? k0); reflexivity.
Qed.
Lemma last_entry_in {A B} (eqb : A -> A -> bool) k (l : list (A * B)) x : last_entry eqb k l = Some x ->
  exists pre k' post, l = pre ++ (k', x) :: post /\ eqb k k' = true /\ Forall (fun p => eqb k (fst p) = false) post.
Proof.
  induction l as [|[k0 y] l IH]; cbn [last_entry]; [discriminate|].
  destruct (last_entry eqb k l) as [z|] eqn:E.
  - intros H. injection H as ->. destruct (IH eq_refl) as (pre & k' & post & -> & H1 & H2).
    exists ((k0, y) :: pre), k', post. auto.
  - destruct (eqb k k0) eqn:Ek; [|discriminate]. intros H. injection H as ->.
    exists [], k0, l. split; [reflexivity|]. split; [exact Ek|].
    clear - E. induction l as [|[k1 z] l IH]; [constructor|]. cbn [last_entry] in E.
    destruct (last_entry eqb k l); [discriminate|]. destruct (eqb k k1) eqn:E1; [discriminate|]. constructor; auto.
Qed.
Lemma last_entry_none {A B} (eqb : A -> A -> bool) k (l : list (A * B)) :
  Forall (fun p => eqb k (fst p) = false) l -> last_entry eqb k l = None.
Proof. induction 1 as [|[k0 y] l H Hl IH]; cbn [last_entry]; [reflexivity|]. rewrite IH. cbn in H. rewrite H. reflexivity. Qed.
Lemma last_entry_app {A B} (eqb : A -> A -> bool) k (l1 : list (A * B)) k' x l2 :
  eqb k k' = true -> Forall (fun p => eqb k (fst p) = false) l2 ->
  last_entry eqb k (l1 ++ (k', x) :: l2) = Some x.
Proof.
  intros He Hf. induction l1 as [|[k0 y] l1 IH]; cbn [app last_entry].
  - rewrite (last_entry_none _ _ _ Hf), He. reflexivity.
  - rewrite IH. reflexivity.
Qed.
Lemma MatchLookup_eq bt dflt d entries oas n : target bt dflt d ->
  Forall2 (fun (e : Z * option str) oa => target bt (snd e) oa) entries oas ->
  MatchLookup bt dflt entries (integer n) =
  Ok (VSingle bt (match last_entry Z.eqb n (combine (map fst entries) oas) with Some oa => oa | None => d end)).
Proof.
  intros Hd HF. unfold MatchLookup, table_default. rewrite (proj1 Hd). cbn [bind].
  destruct (match_map_get _ _ _ HF []) as (m & -> & Hm). cbn [bind].
  unfold integer. cbn [non_null negb card]. rewrite (target_none _ _ _ Hd). cbn [bind single_atom].
  rewrite Hm. destruct (last_entry _ _ _) as [oa|] eqn:E.
  - apply last_entry_in in E as (pre & k' & post & E & _ & _).
    assert (Hin : In (k', oa) (combine (map fst entries) oas)) by (rewrite E; apply in_elt).
    clear - HF Hin.
    assert (exists t, target bt t oa) as (t & Ht).
    { induction HF as [|e oa0 es oas0 He HF IH]; [destruct Hin|]. destruct Hin as [Hin|Hin]; [injection Hin as _ <-; eauto|auto]. }
    apply (set_target _ t). exact Ht.
  - cbn [zget]. apply (set_target _ dflt). exact Hd.
Qed.
Lemma MatchLookup_hit bt dflt d pre t post oas n : target bt dflt d ->
  Forall2 (fun (e : Z * option str) oa => target bt (snd e) oa) (pre ++ (n, t) :: post) oas ->
  Forall (fun e => fst e <> n) post ->
  exists oa, MatchLookup bt dflt (pre ++ (n, t) :: post) (integer n) = Ok (VSingle bt oa) /\ target bt t oa.
Proof.
  intros Hd HF Hp. rewrite (MatchLookup_eq _ _ _ _ _ _ Hd HF).
  apply Forall2_app_inv_l in HF as (oas1 & r & H1 & H2 & ->). inversion H2 as [|y oa l oas2 He2 H3]; subst. cbn [snd] in He2.
  exists oa. split; [|exact He2]. f_equal. f_equal.
  rewrite map_app. cbn [map fst].
  assert (E : combine (map fst pre ++ n :: map fst post) (oas1 ++ oa :: oas2) =
              combine (map fst pre) oas1 ++ (n, oa) :: combine (map fst post) oas2).
  { apply Forall2_length in H1. clear - H1. revert oas1 H1. induction pre as [|p pre IH]; intros [|o oas1] H; try discriminate; [reflexivity|].
    cbn. f_equal. apply IH. injection H; auto. }
  rewrite E. rewrite last_entry_app; [reflexivity|apply Z.eqb_refl|].
  clear - Hp. revert oas2. induction post as [|p post IH]; intros [|o oas2]; cbn; try constructor; inversion Hp; subst.
  - cbn. apply Z.eqb_neq. auto.
  - apply IH. assumption.
Qed.
Lemma MatchLookup_miss bt dflt d entries oas n : target bt dflt d ->
  Forall2 (fun (e : Z * option str) oa => target bt (snd e) oa) entries oas ->
  Forall (fun e => fst e <> n) entries ->
  MatchLookup bt dflt entries (integer n) = Ok (VSingle bt d).
Proof.
  intros Hd HF Hp. rewrite (MatchLookup_eq _ _ _ _ _ _ Hd HF). rewrite last_entry_none; [reflexivity|].
  clear - Hp. revert oas. induction entries as [|p post IH]; intros [|o oas]; cbn; try constructor; inversion Hp; subst.
  - cbn. apply Z.eqb_neq. auto.
  - apply IH. assumption.
Qed.

(** ** match *)
Lemma list_eqb_iff {A} (eqb : A -> A -> bool) : (forall a b, eqb a b = true <-> a = b) ->
  forall l m, list_eqb eqb l m = true <-> l = m.
Proof.
  intros He. induction l as [|a l IH]; intros [|b m]; cbn; try (split; intros; try reflexivity; discriminate).
  rewrite andb_true_iff, He, IH. split; [intros [-> ->]; reflexivity|intros H; injection H as -> ->; auto].
Qed.
Lemma value_eq_pre b v w c : base v = Some b -> base w = Some b -> card v = Some c -> card w = Some c ->
  b <> BDuration -> non_null v = true -> non_null w = true ->
  value_eq v w = (r <- py_eq v w ;; Ok (Some r)).
Proof.
  intros H1 H2 H3 H4 Hd Hn Hn'. unfold value_eq.
  destruct (contains_pre b v w c H1 H2 H3 H4) as [-> ->]. cbn [bind].
  destruct (opt_eqb baseType_eqb (Some b) (Some BDuration)) eqn:E; [cbn in E; apply baseType_eqb_eq in E; contradiction|].
  rewrite Hn, Hn'. reflexivity.
Qed.
Lemma dict_eqb_iff b m m' : wf_bag b m -> wf_bag b m' ->
  (dict_eqb m m' = true <-> forall a, acount (Some a) m = acount (Some a) m').
Proof.
  intros [Hn Hf] [Hn' Hf']. unfold dict_eqb. rewrite andb_true_iff, forallb_forall. split.
  - intros [Hlen Hall] a.
    assert (Hin1 : incl (map fst m) (map fst m')).
    { intros k Hk. apply in_map_iff in Hk as ([k0 n] & Ek & Hk). cbn in Ek. subst k0. apply Hall in Hk. cbn in Hk.
      destruct (aget k m') as [z|] eqn:E; [|discriminate]. apply aget_In in E. apply (in_map fst) in E. exact E. }
    assert (Hin2 : incl (map fst m') (map fst m)).
    { apply NoDup_length_incl; [exact Hn| |exact Hin1]. apply Nat.eqb_eq in Hlen. rewrite !map_length. lia. }
    unfold acount. destruct (aget (Some a) m) as [n|] eqn:E.
    + apply aget_In in E. apply Hall in E. cbn in E. destruct (aget (Some a) m'); [lia|discriminate].
    + destruct (aget (Some a) m') as [n'|] eqn:E'; [|reflexivity].
      apply aget_In in E'. apply (in_map fst) in E'. apply Hin2 in E'. apply in_map_iff in E' as ([k0 n] & Ek & Hk). cbn in Ek. subst k0.
      rewrite (aget_NoDup _ _ _ Hn Hk) in E. discriminate.
  - intros H.
    assert (G : forall m1 m2, wf_bag b m1 -> wf_bag b m2 -> (forall a, acount (Some a) m1 = acount (Some a) m2) -> incl (map fst m1) (map fst m2)).
    { clear. intros m1 m2 [Hn Hf] [Hn' Hf'] H k Hk. apply in_map_iff in Hk as ([k0 n] & Ek & Hk). cbn in Ek. subst k0.
      rewrite Forall_forall in Hf. pose proof (Hf _ Hk) as [Hpos (a & Ek & Ha)]. cbn in Ek, Hpos. subst k.
      specialize (H a). unfold acount in H. rewrite (aget_NoDup _ _ _ Hn Hk) in H.
      destruct (aget (Some a) m2) eqn:E; [|lia]. apply aget_In in E. apply (in_map fst) in E. exact E. }
    split.
    + apply Nat.eqb_eq. rewrite <- (map_length fst m), <- (map_length fst m'). apply Nat.le_antisymm; apply NoDup_incl_length; try assumption; apply G; try (split; assumption); auto.
    + intros [k n] Hk. rewrite Forall_forall in Hf. pose proof (Hf _ Hk) as [Hpos (a & Ek & Ha)]. cbn in Ek, Hpos. subst k.
      specialize (H a). unfold acount in H. rewrite (aget_NoDup _ _ _ Hn Hk) in H. cbn [fst snd].
      destruct (aget (Some a) m'); lia.
Qed.
End P.
