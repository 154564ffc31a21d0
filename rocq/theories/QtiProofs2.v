(** Proofs about QTI values: re-parsing, dictionaries, containers, type soundness. *)
From Coq Require Import QArith Qcanon Qround Permutation.
From Verif Require Import Py Dec XmlUtils Xsd XsdSpec XsdProofs XsdProofs2 QtiValue QtiExpr QtiSpec QtiProofs.
Open Scope Z_scope.
Open Scope list_scope.

Lemma in_range_iff n : in_range n = true <-> int32 n.
Proof. unfold in_range, int32. lia. Qed.

Section P.
Context {X : Ext}.

(** ** Parsing *)
Lemma parse_raw b a : wf_atom b a -> parse_single b (raw_of a) = Ok (Some a).
Proof.
  destruct b, a; cbn [wf_atom]; intros H; try contradiction; cbn [parse_single raw_of]; try reflexivity.
  - rewrite H. reflexivity.
  - apply in_range_iff in H. rewrite H. reflexivity.
  - destruct H as (H1 & H2 & H3). cbn [pair_of]. rewrite H1, H2. cbn [andb negb orb bind].
    unfold sorted_pair. rewrite H3. reflexivity.
  - destruct H as [H1 H2]. apply in_range_iff in H1. apply in_range_iff in H2.
    cbn [point_of]. rewrite H1, H2. reflexivity.
  - destruct s; [congruence|reflexivity].
Qed.
Lemma new_atom_raw b a : wf_atom b a -> new_atom b (raw_of a) = Ok (Some a).
Proof. intros H. unfold new_atom. destruct b; try (apply parse_raw; exact H). destruct a; contradiction. Qed.
Lemma str_ltb_asym s t : str_ltb s t = true -> str_ltb t s = false.
Proof.
  revert t; induction s as [|a s IH]; intros [|b t] H; cbn [str_ltb] in *; try reflexivity; try discriminate.
  destruct (a <? b) eqn:E1.
  - replace (b <? a) with false by lia. reflexivity.
  - destruct (b <? a) eqn:E2; [discriminate|]. apply IH. exact H.
Qed.
Lemma pair_of_ok l n a b : pair_of n l = Ok (a, b) -> (n = true -> x_ncname a = true /\ x_ncname b = true) /\ l = [a; b].
Proof.
  unfold pair_of. destruct l as [|p [|q [|]]]; try discriminate.
  destruct (n && (negb (x_ncname p) || negb (x_ncname q))) eqn:E; [discriminate|].
  intros H. injection H as -> ->. split; [|reflexivity]. intros ->. cbn [andb] in E.
  destruct (x_ncname a), (x_ncname b); try discriminate; auto.
Qed.
Lemma sorted_pair_wf a b : x_ncname a = true -> x_ncname b = true -> wf_atom BPair (sorted_pair a b).
Proof.
  intros Ha Hb. unfold sorted_pair. destruct (str_ltb b a) eqn:E; cbn; repeat split; auto.
  apply str_ltb_asym. exact E.
Qed.
(** A parsed text is well formed, except that an integer may be too large *)
Lemma parse_wf b r oa : parse_single b r = Ok oa ->
  (match b, r with BInteger, RText t => forall n, DecodeInteger t = Ok n -> int32 n | _, _ => True end) ->
  (match b, r with BDirectedPair, RStrs l => Forall (fun s => x_ncname s = true) l | _, _ => True end) ->
  forall a, oa = Some a -> wf_atom b a.
Proof.
  intros H Hi Hd a ->. destruct b, r; cbn [parse_single] in H; try discriminate;
    try (injection H as <-; exact I).
  - unfold bind in H. destruct (DecodeBoolean (Some s)) as [[]|]; try discriminate. injection H as <-. exact I.
  - destruct (pair_of _ _) as [[p q]|] eqn:E; [|discriminate]. cbn [bind] in H. injection H as <-.
    apply pair_of_ok in E as [E _]. apply E. reflexivity.
  - destruct (pair_of _ _) as [[p q]|] eqn:E; [|discriminate]. cbn [bind] in H. injection H as <-.
    apply pair_of_ok in E as [_ ->]. inversion Hd as [|x y H1 H2]; subst. inversion H2; subst. cbn. auto.
  - destruct (x_double s); [|discriminate]. cbn [bind] in H. injection H as <-. exact I.
  - destruct (x_double s); [|discriminate]. cbn [bind] in H. injection H as <-. exact I.
  - destruct (x_ncname s) eqn:E; [|discriminate]. injection H as <-. exact E.
  - destruct (in_range n) eqn:E; [|discriminate]. injection H as <-. apply in_range_iff. exact E.
  - destruct (DecodeInteger s) as [n|] eqn:E; [|discriminate]. cbn [bind] in H. injection H as <-.
    cbn. apply Hi. reflexivity.
  - destruct (pair_of _ _) as [[p q]|] eqn:E; [|discriminate]. cbn [bind] in H. injection H as <-.
    apply pair_of_ok in E as [E _]. apply sorted_pair_wf; apply E; reflexivity.
  - destruct (pair_of _ _) as [[p q]|] eqn:E; [|discriminate]. cbn [bind] in H. injection H as <-.
    apply pair_of_ok in E as [E _]. apply sorted_pair_wf; apply E; reflexivity.
  - destruct (map_result _ _) as [l|]; [|discriminate]. cbn [bind] in H.
    unfold point_of in H. destruct l as [|x [|y []]]; try discriminate.
    destruct (in_range x && in_range y) eqn:E; [|discriminate]. cbn [bind] in H. injection H as <-.
    apply andb_true_iff in E as [E1 E2]. cbn. split; apply in_range_iff; assumption.
  - unfold point_of in H. destruct l as [|x [|y []]]; try discriminate.
    destruct (in_range x && in_range y) eqn:E; [|discriminate]. cbn [bind] in H. injection H as <-.
    apply andb_true_iff in E as [E1 E2]. cbn. split; apply in_range_iff; assumption.
  - destruct s; [discriminate|]. injection H as <-. cbn. discriminate.
Qed.

(** ** Dictionaries *)
Lemma aget_aset {A} k k' (x : A) m : aget k (aset k' x m) = if oatom_eqb k k' then Some x else aget k m.
Proof.
  induction m as [|[k0 y] m IH]; cbn [aset aget].
  - reflexivity.
  - destruct (oatom_eqb k' k0) eqn:E; cbn [aget].
    + apply oatom_eqb_eq in E. subst k0. destruct (oatom_eqb k k'); reflexivity.
    + rewrite IH. destruct (oatom_eqb k k0) eqn:E2; [|reflexivity].
      apply oatom_eqb_eq in E2. subst k0.
      destruct (oatom_eqb k k') eqn:E3; [|reflexivity].
      apply oatom_eqb_eq in E3. subst. rewrite oatom_eqb_refl in E. discriminate.
Qed.
Lemma aset_keys {A} k (x : A) m :
  map fst (aset k x m) = map fst m ++ (if existsb (oatom_eqb k) (map fst m) then [] else [k]).
Proof.
  induction m as [|[k0 y] m IH]; cbn [aset map existsb app fst]; [reflexivity|].
  destruct (oatom_eqb k k0) eqn:E; cbn [map fst orb].
  - rewrite app_nil_r. reflexivity.
  - rewrite IH. reflexivity.
Qed.
Lemma existsb_oatom k l : existsb (oatom_eqb k) l = true <-> In k l.
Proof.
  rewrite existsb_exists. split.
  - intros (x & Hx & E). apply oatom_eqb_eq in E. subst. exact Hx.
  - intros H. exists k. split; [exact H|apply oatom_eqb_refl].
Qed.
Lemma aset_NoDup {A} k (x : A) m : NoDup (map fst m) -> NoDup (map fst (aset k x m)).
Proof.
  intros H. rewrite aset_keys. destruct (existsb (oatom_eqb k) (map fst m)) eqn:E.
  - rewrite app_nil_r. exact H.
  - apply NoDup_app_remove_r with (l' := []) in H || idtac.
    assert (~ In k (map fst m)) by (intros Hk; apply existsb_oatom in Hk; congruence).
    clear E. induction (map fst m) as [|y l IH]; cbn.
    + constructor; [intros []|constructor].
    + inversion H as [|z l' Hy Hl]; subst. constructor.
      * intros Hin. apply in_app_or in Hin as [?|[->|[]]]; [auto|]. apply H0. left; reflexivity.
      * apply IH; [exact Hl|]. intros ?; apply H0; right; assumption.
Qed.
Lemma aget_In {A} k (m : list (option atom * A)) x : aget k m = Some x -> In (k, x) m.
Proof.
  induction m as [|[k0 y] m IH]; cbn [aget]; [discriminate|].
  destruct (oatom_eqb k k0) eqn:E; intros H.
  - apply oatom_eqb_eq in E. injection H as ->. subst. left; reflexivity.
  - right. apply IH. exact H.
Qed.
Lemma aget_NoDup {A} k (m : list (option atom * A)) x : NoDup (map fst m) -> In (k, x) m -> aget k m = Some x.
Proof.
  induction m as [|[k0 y] m IH]; intros Hn Hi; [destruct Hi|].
  cbn [aget]. inversion Hn as [|z l Hy Hl]; subst. destruct Hi as [Hi|Hi].
  - injection Hi as -> ->. rewrite oatom_eqb_refl. reflexivity.
  - destruct (oatom_eqb k k0) eqn:E; [|apply IH; assumption].
    apply oatom_eqb_eq in E. subst k0. exfalso. apply Hy. apply (in_map fst) in Hi. exact Hi.
Qed.
Lemma aset_In {A} k (x : A) m p : In p (aset k x m) -> p = (k, x) \/ In p m.
Proof.
  induction m as [|[k0 y] m IH]; cbn [aset]; intros H.
  - destruct H as [<-|[]]. auto.
  - destruct (oatom_eqb k k0) eqn:E.
    + apply oatom_eqb_eq in E. subst k0. destruct H as [<-|H]; [auto|right; right; exact H].
    + destruct H as [<-|H]; [right; left; reflexivity|]. destruct (IH H); [auto|right; right; assumption].
Qed.
Lemma aset_nil {A} k (x : A) m : aset k x m <> [].
Proof. destruct m as [|[k0 y] m]; cbn; [discriminate|]. destruct (oatom_eqb k k0); discriminate. Qed.

(** Multisets kept as dictionaries of counts *)
Definition wf_bag (b : baseType) (m : list (option atom * Z)) : Prop :=
  NoDup (map fst m) /\ Forall (fun p => 0 < snd p /\ exists a, fst p = Some a /\ wf_atom b a) m.
Lemma acount_aincr k k' m : acount k (aincr k' m) = acount k m + (if oatom_eqb k k' then 1 else 0).
Proof.
  unfold aincr, acount at 1. rewrite aget_aset. destruct (oatom_eqb k k') eqn:E.
  - apply oatom_eqb_eq in E. subst. reflexivity.
  - unfold acount. lia.
Qed.
Lemma bag_nonneg b m : wf_bag b m -> forall k, 0 <= acount k m.
Proof.
  intros [_ H] k. unfold acount. destruct (aget k m) as [n|] eqn:E; [|lia].
  apply aget_In in E. rewrite Forall_forall in H. apply H in E as [E _]. cbn in E. lia.
Qed.
Lemma aincr_bag b a m : wf_atom b a -> wf_bag b m -> wf_bag b (aincr (Some a) m).
Proof.
  intros Ha Hm. pose proof (bag_nonneg b m Hm (Some a)) as Hc. destruct Hm as [Hn Hf].
  split; [apply aset_NoDup; exact Hn|].
  apply Forall_forall. intros p Hp. apply aset_In in Hp as [->|Hp].
  - cbn. split; [lia|]. exists a. auto.
  - rewrite Forall_forall in Hf. apply Hf. exact Hp.
Qed.
(** the number of members equal to [a] *)
Lemma somes_app {A} (l m : list (option A)) : somes (l ++ m) = somes l ++ somes m.
Proof. induction l as [|[a|] l IH]; cbn; [reflexivity| |]; rewrite IH; reflexivity. Qed.
Lemma somes_map_some {A} (l : list A) : somes (map Some l) = l.
Proof. induction l as [|a l IH]; cbn; [reflexivity|rewrite IH; reflexivity]. Qed.
Lemma somes_repeat (a : atom) n : somes (repeat (Some a) n) = repeat a n.
Proof. induction n as [|n IH]; cbn; [reflexivity|rewrite IH; reflexivity]. Qed.
Lemma count_repeat (a b : atom) n : count_occ atom_eq_dec (repeat b n) a = if atom_eqb a b then n else O.
Proof.
  induction n as [|n IH]; cbn [repeat count_occ]; [destruct (atom_eqb a b); reflexivity|].
  destruct (atom_eq_dec b a) as [->|N].
  - rewrite IH. assert (E : atom_eqb a a = true) by (apply atom_eqb_eq; reflexivity). rewrite E. reflexivity.
  - rewrite IH. destruct (atom_eqb a b) eqn:E; [|reflexivity]. apply atom_eqb_eq in E. congruence.
Qed.
Lemma acount_cons_other k k0 n m : k <> k0 -> acount k ((k0, n) :: m) = acount k m.
Proof. intros H. unfold acount. cbn [aget]. apply oatom_eqb_neq in H. rewrite H. reflexivity. Qed.
Lemma acount_notin k m : ~ In k (map fst m) -> acount k m = 0.
Proof.
  unfold acount. intros H. destruct (aget k m) as [n|] eqn:E; [|reflexivity].
  apply aget_In in E. apply (in_map fst) in E. contradiction.
Qed.
Lemma occurs_bag b bt m a : wf_bag b m -> Z.of_nat (occurs a (VMultiple bt (Some m))) = acount (Some a) m.
Proof.
  unfold occurs. cbn [members]. induction m as [|[k n] m IH]; intros [Hn Hf]; [reflexivity|].
  cbn [flat_map fst snd]. rewrite somes_app, count_occ_app.
  inversion Hf as [|p q [Hpos (a' & Ek & Ha)] Hf']; subst. cbn [fst snd] in Ek, Hpos. subst k.
  inversion Hn as [|p' q' Hnot Hn']; subst.
  rewrite somes_repeat, count_repeat, Nat2Z.inj_add, IH by (split; assumption).
  destruct (atom_eqb a a') eqn:E.
  - apply atom_eqb_eq in E. subst a'. rewrite (acount_notin _ m Hnot).
    unfold acount. cbn [aget]. rewrite oatom_eqb_refl. rewrite Z2Nat.id by lia. lia.
  - rewrite acount_cons_other; [lia|]. intros H. injection H as ->.
    assert (atom_eqb a' a' = true) by (apply atom_eqb_eq; reflexivity). congruence.
Qed.
Lemma bag_value b m : wf_bag b m -> m <> [] -> wf_value (VMultiple (Some b) (Some m)).
Proof. intros [H1 H2] H3. cbn. auto. Qed.
Lemma value_bag b m : wf_value (VMultiple (Some b) (Some m)) -> wf_bag b m.
Proof. intros (H1 & H2 & H3). split; assumption. Qed.

(** ** SetValue on well-formed members *)
Definition wf_raws (b : baseType) (l : list (option raw)) (as_ : list atom) : Prop :=
  somes l = map raw_of as_ /\ Forall (wf_atom b) as_.
Lemma ordered_loop_raws b l : forall acc, Forall (wf_atom b) (somes l) ->
  ordered_loop (Some b) acc (map (option_map raw_of) l) = (acc ++ map Some (somes l), None).
Proof.
  induction l as [|[a|] l IH]; intros acc H; cbn [map option_map ordered_loop somes] in *.
  - rewrite app_nil_r. reflexivity.
  - inversion H as [|x y Ha Hl]; subst. rewrite (new_atom_raw b a Ha). rewrite IH by exact Hl.
    rewrite <- app_assoc. reflexivity.
  - apply IH. exact H.
Qed.
Lemma set_ordered_raws b l : Forall (wf_atom b) (somes l) ->
  set_ordered (Some b) (map (option_map raw_of) l) =
  (VOrdered (Some b) (match somes l with [] => None | _ => Some (map Some (somes l)) end), None).
Proof.
  intros H. unfold set_ordered. rewrite ordered_loop_raws by exact H. cbn [app].
  destruct (somes l); reflexivity.
Qed.
Lemma multiple_loop_raws b l : forall acc, Forall (wf_atom b) (somes l) ->
  multiple_loop (Some b) acc (map (option_map raw_of) l) =
  (fold_left (fun m a => aincr (Some a) m) (somes l) acc, None).
Proof.
  induction l as [|[a|] l IH]; intros acc H; cbn [map option_map multiple_loop somes fold_left] in *.
  - reflexivity.
  - inversion H as [|x y Ha Hl]; subst. rewrite (new_atom_raw b a Ha). apply IH. exact Hl.
  - apply IH. exact H.
Qed.
Definition bag_of (l : list atom) : list (option atom * Z) := fold_left (fun m a => aincr (Some a) m) l [].
Lemma fold_bag b l : forall m, Forall (wf_atom b) l -> wf_bag b m ->
  wf_bag b (fold_left (fun m a => aincr (Some a) m) l m).
Proof.
  induction l as [|a l IH]; intros m H Hm; cbn [fold_left]; [exact Hm|].
  inversion H as [|x y Ha Hl]; subst. apply IH; [exact Hl|]. apply aincr_bag; assumption.
Qed.
Lemma bag_of_wf b l : Forall (wf_atom b) l -> wf_bag b (bag_of l).
Proof. intros H. apply fold_bag; [exact H|]. split; [constructor|constructor]. Qed.
Lemma fold_count l : forall m a, acount (Some a) (fold_left (fun m a => aincr (Some a) m) l m) =
  acount (Some a) m + Z.of_nat (count_occ atom_eq_dec l a).
Proof.
  induction l as [|b l IH]; intros m a; cbn [fold_left count_occ]; [lia|].
  rewrite IH, acount_aincr. cbn [oatom_eqb opt_eqb].
  destruct (atom_eq_dec b a) as [->|N].
  - assert (E : atom_eqb a a = true) by (apply atom_eqb_eq; reflexivity).
    unfold oatom_eqb, opt_eqb. rewrite E. lia.
  - unfold oatom_eqb, opt_eqb. destruct (atom_eqb a b) eqn:E; [apply atom_eqb_eq in E; congruence|]. lia.
Qed.
Lemma bag_of_nil l : bag_of l = [] <-> l = [].
Proof.
  split; [|intros ->; reflexivity]. unfold bag_of. assert (G : forall l m, m <> [] -> fold_left (fun m a => aincr (Some a) m) l m <> []).
  { induction l0 as [|a l0 IH]; intros m Hm; cbn; [exact Hm|]. apply IH. apply aset_nil. }
  destruct l as [|a l]; [reflexivity|]. cbn [fold_left]. intros H. exfalso. revert H. apply G. apply aset_nil.
Qed.
Lemma set_multiple_raws b l : Forall (wf_atom b) (somes l) ->
  set_multiple (Some b) (map (option_map raw_of) l) =
  (VMultiple (Some b) (match somes l with [] => None | _ => Some (bag_of (somes l)) end), None).
Proof.
  intros H. unfold set_multiple. rewrite multiple_loop_raws by exact H. fold (bag_of (somes l)).
  destruct (somes l) as [|a l'] eqn:E; [reflexivity|].
  destruct (bag_of (a :: l')) eqn:E2; [apply bag_of_nil in E2; discriminate|reflexivity].
Qed.
Lemma bag_occurs b bt l a : Forall (wf_atom b) l ->
  occurs a (VMultiple bt (Some (bag_of l))) = count_occ atom_eq_dec l a.
Proof.
  intros H. pose proof (occurs_bag b bt _ a (bag_of_wf b l H)) as E.
  unfold bag_of at 2 in E. rewrite fold_count in E. change (acount (Some a) []) with 0 in E. lia.
Qed.
(** an ordered or multiple container set from nothing *)
Lemma ordered_loop_nones bt l : forall acc, somes l = [] -> ordered_loop bt acc (map (option_map raw_of) l) = (acc, None).
Proof.
  induction l as [|[a|] l IH]; intros acc H; cbn in *; [reflexivity|discriminate|]. apply IH. exact H.
Qed.
Lemma multiple_loop_nones bt l : forall acc, somes l = [] -> multiple_loop bt acc (map (option_map raw_of) l) = (acc, None).
Proof.
  induction l as [|[a|] l IH]; intros acc H; cbn in *; [reflexivity|discriminate|]. apply IH. exact H.
Qed.

(** ** Members of well-formed values *)
Lemma somes_GetValues v : match card v with Some COrdered | Some CMultiple => members v = somes (GetValues v) | _ => True end.
Proof. destruct v as [| | |bt [l|]|bt [m|]|]; cbn; auto. Qed.
Lemma members_wf v : wf_value v -> forall b, base v = Some b -> Forall (wf_atom b) (members v).
Proof.
  intros Hw b Hb. destruct v as [|bt|bt [a|]|bt [l|]|bt [m|]|[l|]]; cbn in Hb |- *; try discriminate;
    try (subst bt); try constructor; cbn in Hw; auto.
  - destruct Hw as [_ Hl]. induction Hl as [|x l (a & -> & Ha) Hl IH]; cbn; constructor; assumption.
  - destruct Hw as (_ & _ & Hm). induction Hm as [|[k n] m [Hpos (a & Ek & Ha)] Hm IH]; cbn; [constructor|].
    cbn [fst snd] in *. subst k. rewrite somes_app, somes_repeat. apply Forall_app. split; [|exact IH].
    apply Forall_forall. intros x Hx. apply repeat_spec in Hx. subst. exact Ha.
Qed.
Lemma somes_flat_nonempty b m : m <> [] -> wf_bag b m ->
  somes (flat_map (fun p : option atom * Z => repeat (fst p) (Z.to_nat (snd p))) m) <> [].
Proof.
  intros Hm [_ Hf]. destruct m as [|[k n] m]; [congruence|]. inversion Hf as [|x y [Hpos (a & Ek & Ha)] Hf']; subst.
  cbn [fst snd] in *. subst k. cbn [flat_map fst snd]. rewrite somes_app, somes_repeat.
  destruct (Z.to_nat n) eqn:E; [lia|]. cbn. discriminate.
Qed.
(** A well-formed single, multiple or ordered value is NULL exactly when it has no member *)
Lemma non_null_members v : wf_value v -> card v <> Some CRecord -> (non_null v = false <-> members v = []).
Proof.
  intros Hw Hc. destruct v as [|bt|bt [a|]|bt [l|]|bt [m|]|[l|]]; cbn [non_null members card] in *; try tauto;
    try (split; [discriminate|]); try discriminate; try congruence.
  - intros H. destruct bt as [b|]; [|contradiction]. cbn in Hw. destruct Hw as [Hne Hl].
    exfalso. destruct Hl as [|x l (a & -> & Ha) Hl]; [congruence|]. cbn in H. discriminate.
  - intros H. destruct bt as [b|]; [|contradiction]. exfalso.
    destruct Hw as (Hne & Hn & Hf). apply (somes_flat_nonempty b m Hne); [split; assumption|exact H].
Qed.

(** ** multiple and ordered *)
Lemma gather_ok c b vs : (c = CMultiple \/ c = COrdered) ->
  Forall wf_value vs -> Forall (operand_of c b) vs ->
  forall bt acc, (bt = None \/ bt = Some b) ->
  exists bt' l, gather c bt acc vs = Ok (bt', acc ++ l) /\ somes l = flat_map members vs /\
    (bt' = None \/ bt' = Some b) /\ (somes l <> [] -> bt' = Some b) /\ (bt = Some b -> bt' = Some b).
Proof.
  intros Hc. induction vs as [|v vs IH]; intros Hw Ho bt acc Hbt.
  - exists bt, []. cbn. rewrite app_nil_r. repeat split; auto. congruence.
  - inversion Hw as [|x y Hv Hws]; subst. inversion Ho as [|x y Hov Hos]; subst.
    cbn [gather flat_map]. destruct Hov as [[Hb Hnr]|[Hb Hm]].
    + rewrite Hb. destruct (IH Hws Hos bt acc Hbt) as (bt' & l & E & El & Ha & Hd & He).
      exists bt', l. split; [exact E|]. split; [|auto].
      assert (members v = []) as ->; [|exact El].
      destruct v as [|bt0|bt0 [a|]|bt0 [l0|]|bt0 [m|]|[l0|]]; cbn in Hb, Hv |- *; try reflexivity; subst; try contradiction.
    + rewrite Hb.
      replace (match bt with None => true | Some b' => baseType_eqb b' b end) with true
        by (destruct Hbt as [->| ->]; [reflexivity|symmetry; apply baseType_eqb_refl]).
      cbn [negb].
      destruct (non_null v) eqn:En; cbn [negb].
      * assert (Hne : members v <> []).
        { intros H. assert (card v <> Some CRecord) by (destruct v; cbn in *; congruence).
          apply (non_null_members v Hv H0) in H. congruence. }
        destruct Hm as [Hm|[Hm|Hm]]; [congruence| |].
        -- rewrite Hm. destruct (IH Hws Hos (Some b) (acc ++ [single_atom v])) as (bt' & l & E & El & Ha & Hd & He); [auto|].
           exists bt', (single_atom v :: l). rewrite E, <- app_assoc. split; [reflexivity|].
           destruct v as [| |bt0 [a|]| | |]; cbn in Hm, En; try discriminate. cbn [single_atom somes members app].
           rewrite El. repeat split; auto.
        -- rewrite Hm. assert (c <> CSingle) by (destruct Hc; subst; discriminate).
           replace (match c with CSingle => gather c (Some b) (acc ++ [single_atom v]) vs | _ => _ end)
             with (gather c (Some b) (acc ++ GetValues v) vs).
           2:{ destruct Hc; subst c; reflexivity. }
           destruct (IH Hws Hos (Some b) (acc ++ GetValues v)) as (bt' & l & E & El & Ha & Hd & He); [auto|].
           exists bt', (GetValues v ++ l). rewrite E, <- app_assoc.
           split; [destruct Hc; subst c; reflexivity|]. rewrite somes_app, El.
           pose proof (somes_GetValues v) as Hs. rewrite Hm in Hs.
           assert (members v = somes (GetValues v)) as -> by (destruct Hc; subst c; exact Hs).
           repeat split; auto.
      * assert (Em : members v = []).
        { assert (card v <> Some CRecord) by (destruct v; cbn in *; congruence).
          apply (non_null_members v Hv H). exact En. }
        rewrite Em. destruct (IH Hws Hos (Some b) acc) as (bt' & l & E & El & Ha & Hd & He); [auto|].
        exists bt', l. repeat split; auto.
Qed.
Lemma operands_wf c b vs : Forall wf_value vs -> Forall (operand_of c b) vs ->
  Forall (wf_atom b) (flat_map members vs).
Proof.
  induction vs as [|v vs IH]; intros Hw Ho; cbn; [constructor|].
  inversion Hw as [|x y Hv Hws]; subst. inversion Ho as [|x y Hov Hos]; subst.
  apply Forall_app. split; [|apply IH; assumption].
  destruct Hov as [[Hb Hnr]|[Hb _]]; [|apply members_wf; assumption].
  destruct v as [|bt0|bt0 [a|]|bt0 [l0|]|bt0 [m|]|[l0|]]; cbn in Hb, Hv |- *; try constructor; subst; try contradiction.
Qed.
Lemma op_multiple_ok b vs : Forall wf_value vs -> Forall (operand_of CMultiple b) vs ->
  exists bt r, op_multiple vs = Ok (VMultiple bt r) /\ (bt = None \/ bt = Some b) /\
    wf_value (VMultiple bt r) /\
    (forall a, occurs a (VMultiple bt r) = count_occ atom_eq_dec (flat_map members vs) a) /\
    (r = None <-> flat_map members vs = []).
Proof.
  intros Hw Ho. unfold op_multiple.
  destruct (gather_ok CMultiple b vs (or_introl eq_refl) Hw Ho None [] (or_introl eq_refl))
    as (bt & l & E & El & Hbt & Hne & _).
  rewrite E. cbn [bind app]. pose proof (operands_wf _ _ _ Hw Ho) as Hwf. rewrite <- El in *.
  destruct (somes l) as [|a0 l0] eqn:Es.
  - unfold set_multiple. rewrite multiple_loop_nones by exact Es. cbn [finish].
    exists bt, None. repeat split; auto; try (destruct bt; exact I).
  - assert (bt = Some b) as -> by (apply Hne; discriminate).
    rewrite set_multiple_raws by (rewrite Es; exact Hwf). rewrite Es. cbn [finish].
    eexists _, _. split; [reflexivity|]. split; [auto|]. split; [|split].
    + apply bag_value; [apply bag_of_wf; exact Hwf|]. intros H. apply bag_of_nil in H. discriminate.
    + intros a. apply (bag_occurs b). exact Hwf.
    + split; discriminate.
Qed.
Lemma op_ordered_ok b vs : Forall wf_value vs -> Forall (operand_of COrdered b) vs ->
  exists bt r, op_ordered vs = Ok (VOrdered bt r) /\ (bt = None \/ bt = Some b) /\
    wf_value (VOrdered bt r) /\ members (VOrdered bt r) = flat_map members vs /\
    (r = None <-> flat_map members vs = []).
Proof.
  intros Hw Ho. unfold op_ordered.
  destruct (gather_ok COrdered b vs (or_intror eq_refl) Hw Ho None [] (or_introl eq_refl))
    as (bt & l & E & El & Hbt & Hne & _).
  rewrite E. cbn [bind app]. pose proof (operands_wf _ _ _ Hw Ho) as Hwf. rewrite <- El in *.
  destruct (somes l) as [|a0 l0] eqn:Es.
  - unfold set_ordered. rewrite ordered_loop_nones by exact Es. cbn [finish].
    exists bt, None. repeat split; auto; try (destruct bt; exact I).
  - assert (bt = Some b) as -> by (apply Hne; discriminate).
    rewrite set_ordered_raws by (rewrite Es; exact Hwf). rewrite Es. cbn [finish].
    eexists _, _. split; [reflexivity|]. split; [auto|]. split; [|split].
    + cbn [wf_value]. split; [discriminate|]. clear - Hwf. induction Hwf; cbn; constructor; eauto.
    + cbn [members]. apply somes_map_some.
    + split; discriminate.
Qed.
End P.
