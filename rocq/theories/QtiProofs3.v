(** Proofs about the container operators of QTI expressions. *)
From Coq Require Import QArith Qcanon Qround Permutation.
From Verif Require Import Py Dec XmlUtils Xsd XsdSpec XsdProofs XsdProofs2 QtiValue QtiExpr QtiSpec
  QtiProofs QtiProofs2.
Open Scope Z_scope.
Open Scope list_scope.

Section P.
Context {X : Ext}.

Lemma count_flat (vs : list value) a : count_occ atom_eq_dec (flat_map members vs) a = list_sum (map (occurs a) vs).
Proof.
  induction vs as [|v vs IH]; [reflexivity|]. cbn [flat_map map list_sum fold_right].
  rewrite count_occ_app, IH. reflexivity.
Qed.

(** ** delete *)
Lemma GetValues_somes b v : wf_value v -> base v = Some b ->
  GetValues v = map Some (somes (GetValues v)).
Proof.
  intros Hw Hb. destruct v as [|bt|bt [a|]|bt [l|]|bt [m|]|[l|]]; cbn in Hb, Hw |- *; try reflexivity; subst.
  - destruct Hw as [_ Hl]. induction Hl as [|x l (a & -> & Ha) Hl IH]; cbn; congruence.
  - destruct Hw as (_ & _ & Hm). unfold multiple_values.
    induction Hm as [|[k n] m [Hpos (a & Ek & Ha)] Hm IH]; cbn [flat_map fst snd]; [reflexivity|].
    cbn [fst snd] in *. subst k. rewrite IH at 1. rewrite somes_app, map_app. f_equal.
    rewrite somes_repeat. clear. induction (Z.to_nat n) as [|k IH]; cbn; congruence.
Qed.
Lemma filter_somes (f : option atom -> bool) l : somes (filter f (map Some l)) = filter (fun a => f (Some a)) l.
Proof. induction l as [|a l IH]; cbn; [reflexivity|]. destruct (f (Some a)); cbn; rewrite IH; reflexivity. Qed.
Lemma filter_Forall {A} (P : A -> Prop) f l : Forall P l -> Forall P (filter f l).
Proof. rewrite !Forall_forall. intros H x Hx. apply filter_In in Hx. apply H. tauto. Qed.
Definition others (a : atom) (l : list atom) : list atom := filter (fun x => negb (atom_eqb a x)) l.
Lemma others_remove a l : others a l = remove atom_eq_dec a l.
Proof.
  unfold others. induction l as [|x l IH]; cbn; [reflexivity|].
  destruct (atom_eq_dec a x) as [->|N].
  - assert (atom_eqb x x = true) as -> by (apply atom_eqb_eq; reflexivity). exact IH.
  - destruct (atom_eqb a x) eqn:E; [apply atom_eqb_eq in E; congruence|]. cbn. rewrite IH. reflexivity.
Qed.
Lemma op_delete_ok b a c : wf_value c -> base c = Some b -> b <> BDuration ->
  (card c = Some COrdered \/ card c = Some CMultiple) -> non_null c = true ->
  exists v, op_delete [VSingle (Some b) (Some a); c] = Ok v /\ card v = card c /\ base v = Some b /\ wf_value v /\
    (card c = Some COrdered -> members v = remove atom_eq_dec a (members c)) /\
    (forall x, occurs x v = count_occ atom_eq_dec (remove atom_eq_dec a (members c)) x).
Proof.
  intros Hw Hb Hnd Hc Hn. unfold op_delete. cbn [two bind base card single_atom].
  rewrite Hb. cbn match. rewrite baseType_eqb_refl. cbn [negb].
  destruct (baseType_eqb b BDuration) eqn:E; [apply baseType_eqb_eq in E; contradiction|]. clear E.
  replace (negb (match card c with Some COrdered | Some CMultiple | None => true | _ => false end))
    with false by (destruct Hc as [->| ->]; reflexivity).
  change (non_null (VSingle (Some b) (Some a))) with true. rewrite Hn. cbn [andb].
  set (f := fun v => negb (oatom_eqb (Some a) v)).
  assert (Es : somes (filter f (GetValues c)) = remove atom_eq_dec a (members c)).
  { rewrite (GetValues_somes b c Hw Hb), filter_somes.
    pose proof (somes_GetValues c) as Hs. rewrite <- others_remove. unfold others, f.
    destruct Hc as [E|E]; rewrite E in Hs; rewrite Hs; reflexivity. }
  assert (Hf : Forall (wf_atom b) (somes (filter f (GetValues c)))).
  { rewrite Es, <- others_remove. apply filter_Forall. apply members_wf; assumption. }
  destruct Hc as [Hc|Hc]; rewrite Hc; cbn [new_container bind].
  - cbn [set_value]. rewrite set_ordered_raws by exact Hf. cbn [finish].
    eexists. split; [reflexivity|]. split; [reflexivity|]. split; [reflexivity|].
    rewrite Es in *. split; [|split].
    + destruct (remove _ _ _) as [|x l]; [exact I|]. cbn [wf_value]. split; [discriminate|].
      clear - Hf. induction Hf; cbn; constructor; eauto.
    + intros _. destruct (remove _ _ _) as [|x l]; [reflexivity|]. cbn [members]. apply somes_map_some.
    + intros x. unfold occurs. destruct (remove _ _ _) as [|y l]; [reflexivity|].
      cbn [members]. rewrite somes_map_some. reflexivity.
  - cbn [set_value]. rewrite set_multiple_raws by exact Hf. cbn [finish].
    eexists. split; [reflexivity|]. split; [reflexivity|]. split; [reflexivity|].
    rewrite Es in *. split; [|split; [discriminate|]].
    + destruct (remove _ _ _) as [|x l] eqn:Er; [exact I|]. apply bag_value; [apply bag_of_wf; exact Hf|].
      intros H. apply bag_of_nil in H. discriminate.
    + intros x. destruct (remove _ _ _) as [|y l] eqn:Er; [reflexivity|]. apply (bag_occurs b). exact Hf.
Qed.
Lemma count_remove (a x : atom) l :
  count_occ atom_eq_dec (remove atom_eq_dec a l) x = if atom_eq_dec a x then O else count_occ atom_eq_dec l x.
Proof.
  destruct (atom_eq_dec a x) as [->|N]; [apply count_occ_not_In; apply remove_In|].
  induction l as [|y l IH]; [reflexivity|]. cbn [remove]. destruct (atom_eq_dec a y) as [->|N2].
  - rewrite IH. cbn [count_occ]. destruct (atom_eq_dec y x); [contradiction|reflexivity].
  - cbn [count_occ]. rewrite IH. reflexivity.
Qed.
Lemma op_delete_null s c b : base s = Some b -> base c = Some b -> b <> BDuration ->
  card s = Some CSingle -> (card c = Some COrdered \/ card c = Some CMultiple) ->
  non_null s = false \/ non_null c = false ->
  exists v, op_delete [s; c] = Ok v /\ card v = card c /\ base v = Some b /\ non_null v = false.
Proof.
  intros Hs Hb Hnd Hcs Hc Hn. unfold op_delete. cbn [two bind]. rewrite Hs, Hb. cbn match.
  rewrite baseType_eqb_refl. cbn [negb].
  destruct (baseType_eqb b BDuration) eqn:E; [apply baseType_eqb_eq in E; contradiction|]. clear E.
  rewrite Hcs. replace (non_null s && non_null c) with false
    by (destruct Hn as [->| ->]; [|rewrite andb_false_r]; reflexivity).
  destruct Hc as [->| ->]; cbn; eexists; repeat split.
Qed.

(** ** member *)
Lemma existsb_count a l : existsb (oatom_eqb (Some a)) (map Some l) = (0 <? Z.of_nat (count_occ atom_eq_dec l a)).
Proof.
  induction l as [|x l IH]; [reflexivity|]. cbn [map existsb count_occ].
  rewrite IH. unfold oatom_eqb at 1, opt_eqb. destruct (atom_eq_dec x a) as [->|N].
  - assert (atom_eqb a a = true) as -> by (apply atom_eqb_eq; reflexivity). cbn [orb]. lia.
  - destruct (atom_eqb a x) eqn:E; [apply atom_eqb_eq in E; congruence|]. reflexivity.
Qed.
Lemma op_member_ok b a c : wf_value c -> base c = Some b -> b <> BDuration ->
  (card c = Some COrdered \/ card c = Some CMultiple) -> non_null c = true ->
  exists r, op_member [VSingle (Some b) (Some a); c] = Ok (boolean (Some r)) /\ (r = true <-> In a (members c)).
Proof.
  intros Hw Hb Hnd Hc Hn. unfold op_member. cbn [two bind base].
  rewrite Hb, baseType_eqb_refl. cbn [negb].
  destruct (baseType_eqb b BDuration) eqn:E; [apply baseType_eqb_eq in E; contradiction|]. clear E.
  change (non_null (VSingle (Some b) (Some a))) with true. rewrite Hn. cbn [andb].
  destruct c as [|bt|bt [x|]|bt [l|]|bt [m|]|[l|]]; cbn in Hc, Hn, Hb; try discriminate; try (destruct Hc; discriminate); subst bt.
  - eexists. split; [reflexivity|]. cbn [members]. pose proof (GetValues_somes b _ Hw eq_refl) as El.
    cbn [GetValues] in El. rewrite El at 1. rewrite existsb_count.
    rewrite Z.ltb_lt. rewrite (count_occ_In atom_eq_dec). lia.
  - eexists. split; [reflexivity|]. rewrite existsb_oatom. cbn [members].
    apply value_bag in Hw. pose proof (occurs_bag b (Some b) m a Hw) as Eo. unfold occurs in Eo. cbn [members] in Eo.
    rewrite (count_occ_In atom_eq_dec). destruct Hw as [Hnd2 Hf]. split.
    + intros Hin. apply in_map_iff in Hin as ([k n] & Ek & Hin). cbn in Ek. subst k.
      unfold acount in Eo. rewrite (aget_NoDup _ _ _ Hnd2 Hin) in Eo.
      rewrite Forall_forall in Hf. apply Hf in Hin as [Hpos _]. cbn in Hpos. lia.
    + intros Hpos. unfold acount in Eo. destruct (aget (Some a) m) as [n|] eqn:Ea; [|lia].
      apply aget_In in Ea. apply (in_map fst) in Ea. exact Ea.
Qed.

(** ** containerSize, index *)
Lemma fold_size (m : list (option atom * Z)) : forall s b, wf_bag b m ->
  fold_left (fun s p => s + snd p) m s =
  s + Z.of_nat (length (somes (flat_map (fun p : option atom * Z => repeat (fst p) (Z.to_nat (snd p))) m))).
Proof.
  induction m as [|[k n] m IH]; intros s b [Hn Hf]; cbn [fold_left flat_map]; [cbn; lia|].
  inversion Hf as [|x y [Hpos (a & Ek & Ha)] Hf']; subst. inversion Hn; subst. cbn [fst snd] in *. subst k.
  rewrite (IH _ b) by (split; assumption). rewrite somes_app, somes_repeat, app_length, repeat_length. lia.
Qed.
Lemma somes_length b l : Forall (fun x => exists a, x = Some a /\ wf_atom b a) l -> length (somes l) = length l.
Proof. induction 1 as [|x l (a & -> & _) Hl IH]; cbn; congruence. Qed.
Lemma op_container_size_ok v : wf_value v -> (card v = Some COrdered \/ card v = Some CMultiple) ->
  op_container_size v = mkint (Some (Z.of_nat (length (members v)))).
Proof.
  intros Hw Hc. destruct v as [|bt|bt [x|]|bt [l|]|bt [m|]|[l|]]; cbn in Hc; try (destruct Hc; discriminate); try reflexivity.
  - cbn [op_container_size members]. destruct bt as [b|]; [|contradiction]. destruct Hw as [_ Hl].
    rewrite (somes_length b) by exact Hl. reflexivity.
  - cbn [op_container_size members]. destruct bt as [b|]; [|contradiction]. apply value_bag in Hw.
    rewrite (fold_size m 0 b Hw). reflexivity.
Qed.
Lemma wf_not_file b a : wf_atom b a -> b <> BFile /\ b <> BUri.
Proof. destruct b, a; cbn; try contradiction; split; discriminate. Qed.
Lemma new_single_none b : b <> BFile -> new_single (Some b) None = Ok (VSingle (Some b) None).
Proof. destruct b; try reflexivity. congruence. Qed.
Lemma set_single_raw b a oa : wf_atom b a ->
  set_value (VSingle (Some b) oa) (PRaw (raw_of a)) = (VSingle (Some b) (Some a), None).
Proof. intros H. cbn [set_value]. rewrite (parse_raw b a H). destruct b; reflexivity. Qed.
Lemma nth_somes b l : Forall (fun x => exists a, x = Some a /\ wf_atom b a) l ->
  forall i, nth i l None = nth_error (somes l) i.
Proof.
  induction 1 as [|x l (a & -> & Ha) Hl IH]; intros [|i]; cbn; auto.
Qed.
Lemma op_index_ok b l n : wf_value (VOrdered (Some b) (Some l)) -> 1 <= n ->
  op_index (Some n) (VOrdered (Some b) (Some l)) =
  Ok (VSingle (Some b) (nth_error (members (VOrdered (Some b) (Some l))) (Z.to_nat (n - 1)))).
Proof.
  intros [Hne Hl] Hn. unfold op_index. cbn [members].
  assert (Hb : b <> BFile).
  { destruct l as [|x l]; [congruence|]. inversion Hl as [|x' l' (a & _ & Ha) _]; subst. apply wf_not_file in Ha. tauto. }
  rewrite new_single_none by exact Hb. cbn [bind].
  destruct (n <? 1) eqn:E1; [lia|]. clear E1.
  destruct (n <=? Z.of_nat (length l)) eqn:E2.
  - rewrite (nth_somes b l Hl). destruct (nth_error (somes l) (Z.to_nat (n - 1))) as [a|] eqn:E3.
    + cbn [opayload]. rewrite set_single_raw; [reflexivity|].
      apply nth_error_In in E3. clear - E3 Hl. induction Hl as [|x l (a' & -> & Ha) Hl IH]; [destruct E3|].
      destruct E3 as [<-|E3]; auto.
    + destruct b; reflexivity.
  - cbn. rewrite (proj2 (nth_error_None (somes l) (Z.to_nat (n - 1)))); [reflexivity|].
    rewrite (somes_length b l Hl). lia.
Qed.

(** ** contains *)
Lemma window_infix l1 l2 i : (i + length l1 <= length l2)%nat ->
  window_match l1 l2 i = true <-> firstn (length l1) (skipn i l2) = l1.
Proof.
  intros Hlen. unfold window_match.
  assert (Hl : length (firstn (length l1) (skipn i l2)) = length l1).
  { rewrite firstn_length, skipn_length. lia. }
  revert Hl. generalize (firstn (length l1) (skipn i l2)). clear. intros m.
  revert l1; induction m as [|y m IH]; intros [|x l1] Hl; cbn in *; try discriminate; [tauto|].
  rewrite andb_true_iff, oatom_eqb_eq. injection Hl as Hl. rewrite (IH _ Hl). split.
  - intros [-> ->]. reflexivity.
  - intros H. injection H as -> ->. auto.
Qed.
Lemma windows_infix l1 l2 : existsb (window_match l1 l2) (seq 0 (length l2 + 1 - length l1)) = true <-> infix_of l1 l2.
Proof.
  rewrite existsb_exists. split.
  - intros (i & Hi & Hm). apply in_seq in Hi.
    destruct (Nat.le_gt_cases (length l1) (length l2)); [|lia].
    apply window_infix in Hm; [|lia].
    exists (firstn i l2), (skipn (length l1) (skipn i l2)).
    rewrite <- Hm at 1. rewrite firstn_skipn, firstn_skipn. reflexivity.
  - intros (p & q & ->). exists (length p). rewrite !app_length. split; [apply in_seq; lia|].
    apply window_infix; [rewrite !app_length; lia|].
    rewrite skipn_app, skipn_all, Nat.sub_diag. cbn [app skipn].
    rewrite firstn_app, Nat.sub_diag, firstn_all, firstn_O. apply app_nil_r.
Qed.
Lemma infix_map_some (l1 l2 : list atom) : infix_of (map Some l1) (map Some l2) <-> infix_of l1 l2.
Proof.
  split; intros (p & q & E).
  - apply map_eq_app in E as (p' & r & -> & <- & E). apply map_eq_app in E as (m & q' & -> & E & <-).
    exists p', q'. f_equal. f_equal. symmetry.
    clear - E. revert m E. induction l1 as [|a l1 IH]; intros [|x m] E; cbn in E; try discriminate; [reflexivity|].
    injection E as -> E. f_equal. apply IH. exact E.
  - exists (map Some p), (map Some q). rewrite E, !map_app. reflexivity.
Qed.
Lemma contains_pre b v1 v2 c : base v1 = Some b -> base v2 = Some b -> card v1 = Some c -> card v2 = Some c ->
  CheckBaseTypes [base v1; base v2] = Ok (Some b) /\ CheckCardinalities [card v1; card v2] = Ok (Some c).
Proof.
  intros -> -> -> ->. unfold CheckBaseTypes, CheckCardinalities. cbn [check_bases check_cards].
  rewrite baseType_eqb_refl. assert (cardinality_eqb c c = true) as -> by (apply cardinality_eqb_eq; reflexivity). auto.
Qed.
Lemma op_contains_ordered b l1 l2 : wf_value (VOrdered (Some b) (Some l1)) -> wf_value (VOrdered (Some b) (Some l2)) ->
  b <> BDuration ->
  exists r, op_contains [VOrdered (Some b) (Some l1); VOrdered (Some b) (Some l2)] = Ok (boolean (Some r)) /\
    (r = true <-> infix_of (members (VOrdered (Some b) (Some l1))) (members (VOrdered (Some b) (Some l2)))).
Proof.
  intros H1 H2 Hnd. unfold op_contains. cbn [two bind].
  destruct (contains_pre b (VOrdered (Some b) (Some l1)) (VOrdered (Some b) (Some l2)) COrdered) as [-> ->]; try reflexivity.
  cbn [bind]. destruct (opt_eqb baseType_eqb (Some b) (Some BDuration)) eqn:E.
  { cbn in E. apply baseType_eqb_eq in E. contradiction. }
  cbn [non_null andb]. eexists. split; [reflexivity|]. rewrite windows_infix. cbn [members].
  pose proof (GetValues_somes b _ H1 eq_refl) as E1. pose proof (GetValues_somes b _ H2 eq_refl) as E2.
  cbn [GetValues] in E1, E2. rewrite E1 at 1. rewrite E2 at 1. apply infix_map_some.
Qed.
Lemma op_contains_multiple b m1 m2 : wf_value (VMultiple (Some b) (Some m1)) -> wf_value (VMultiple (Some b) (Some m2)) ->
  b <> BDuration ->
  exists r, op_contains [VMultiple (Some b) (Some m1); VMultiple (Some b) (Some m2)] = Ok (boolean (Some r)) /\
    (r = true <-> forall a, (occurs a (VMultiple (Some b) (Some m1)) <= occurs a (VMultiple (Some b) (Some m2)))%nat).
Proof.
  intros H1 H2 Hnd. unfold op_contains. cbn [two bind].
  destruct (contains_pre b (VMultiple (Some b) (Some m1)) (VMultiple (Some b) (Some m2)) CMultiple) as [-> ->]; try reflexivity.
  cbn [bind]. destruct (opt_eqb baseType_eqb (Some b) (Some BDuration)) eqn:E.
  { cbn in E. apply baseType_eqb_eq in E. contradiction. }
  cbn [non_null andb]. eexists. split; [reflexivity|].
  apply value_bag in H1. apply value_bag in H2. rewrite forallb_forall. split.
  - intros H a. apply Nat2Z.inj_le. rewrite !(occurs_bag b) by assumption.
    unfold acount at 1. destruct (aget (Some a) m1) as [n|] eqn:Ea.
    + apply aget_In in Ea. apply H in Ea. cbn in Ea. lia.
    + apply (bag_nonneg b m2 H2).
  - intros H [k n] Hin. destruct H1 as [Hn1 Hf1]. pose proof Hin as Hin'. rewrite Forall_forall in Hf1.
    apply Hf1 in Hin as [Hpos (a & Ek & Ha)]. cbn in Ek. subst k.
    specialize (H a). apply Nat2Z.inj_le in H.
    rewrite (occurs_bag b (Some b) m1) in H by (split; [assumption|apply Forall_forall; assumption]).
    rewrite (occurs_bag b (Some b) m2) in H by exact H2.
    unfold acount at 1 in H. rewrite (aget_NoDup _ _ _ Hn1 Hin') in H. cbn [fst snd]. lia.
Qed.
End P.
