(** Negotiation. *)
From Coq Require Import Lia Zify Permutation Sorted.
From Verif Require Import Py Iso Dec XmlUtils Imscp ImscpProofs HttpCore HttpParams HttpHeaders HttpSpec
  HttpProofs HttpProofs2 HttpProofs3 HttpProofs4 HttpProofs5 HttpProofs6 HttpProofs7.
Open Scope Z_scope.

(** ** Sorting and searching *)
Section Search.
Context {A : Type} (cmp : A -> A -> comparison) (P : preorder cmp).
Lemma find_min (p : A -> bool) l i : StronglySorted (le_ cmp) l -> find p l = Some i ->
  In i l /\ p i = true /\ forall j, In j l -> p j = true -> cmp i j <> Gt.
Proof.
  intros S0. induction S0 as [|x l S0 IH F]; [discriminate|]. cbn [find]. destruct (p x) eqn:E.
  - intros [= <-]. split; [now left|]. split; [exact E|]. intros j [->|H] _; [now rewrite (pre_refl cmp P)|].
    rewrite Forall_forall in F. now apply F.
  - intros H. destruct (IH H) as (A1 & A2 & A3). split; [now right|]. split; [exact A2|].
    intros j [->|Hj] Hp; [congruence|]. now apply A3.
Qed.
Lemma find_sort p l i : find p (sort cmp l) = Some i ->
  In i l /\ p i = true /\ forall j, In j l -> p j = true -> cmp i j <> Gt.
Proof.
  intros H. destruct (find_min p _ i (sort_sorted cmp P l) H) as (A1 & A2 & A3). rewrite (sort_perm cmp) in A1. split; [exact A1|].
  split; [exact A2|]. intros j Hj. apply A3. now rewrite (sort_perm cmp).
Qed.
Lemma find_sort_none p l : find p (sort cmp l) = None <-> forall j, In j l -> p j = false.
Proof.
  split.
  - intros H j Hj. apply (find_none _ _ H). now rewrite (sort_perm cmp).
  - intros H. destruct (find p (sort cmp l)) as [i|] eqn:E; [|reflexivity]. apply find_some in E as [E1 E2].
    rewrite (sort_perm cmp) in E1. now rewrite (H i E1) in E2.
Qed.
(** Sorting is stable. *)
Definition eqv (i j : A) : bool := match cmp i j with Eq => true | _ => false end.
Lemma insert_stable i x l : filter (eqv i) (insert cmp x l) = filter (eqv i) (x :: l).
Proof.
  induction l as [|y l IH]; [reflexivity|]. cbn [insert]. destruct (cmp y x) eqn:E; [reflexivity| |reflexivity].
  cbn [filter] in *. rewrite IH. destruct (eqv i x) eqn:X; [|reflexivity].
  unfold eqv in *. destruct (cmp i x) eqn:X1; try discriminate.
  destruct (cmp i y) eqn:Y1; try reflexivity. exfalso.
  rewrite <- (pre_eq_l cmp P i y x Y1) in E. congruence.
Qed.
Lemma sort_stable i l : filter (eqv i) (sort cmp l) = filter (eqv i) l.
Proof.
  induction l as [|x l IH]; [reflexivity|]. cbn [sort fold_right]. rewrite insert_stable. cbn [filter]. fold (sort cmp l). now rewrite IH.
Qed.
(** If equal items behave the same, the one found comes first among its equals. *)
Lemma find_first p l i : (forall a b, cmp a b = Eq -> p a = p b) -> find p (sort cmp l) = Some i ->
  exists a b, l = a ++ i :: b /\ Forall (fun j => cmp i j <> Eq) a.
Proof.
  intros C H.
  assert (X : exists r, filter (eqv i) (sort cmp l) = i :: r).
  { assert (Pi : p i = true) by (now apply find_some in H). revert H. generalize (sort cmp l). intros m.
    induction m as [|x m IH]; [discriminate|]. cbn [find filter].
    destruct (p x) eqn:E; [intros [= ->]; unfold eqv; rewrite (pre_refl cmp P); now eexists|].
    destruct (eqv i x) eqn:V; [|exact IH]. unfold eqv in V. destruct (cmp i x) eqn:V1; try discriminate. apply C in V1. congruence. }
  destruct X as [r X]. rewrite sort_stable in X. clear H. induction l as [|x l IH]; [discriminate|]. cbn [filter] in X.
  destruct (eqv i x) eqn:V.
  - inversion X; subst. now exists [], l.
  - destruct (IH X) as (a & b & -> & F). exists (x :: a), b. split; [reflexivity|]. constructor; [|exact F].
    unfold eqv in V. now destruct (cmp i x).
Qed.
End Search.

(** ** The loop over the candidates *)
Section Select.
Context {I C : Type} (matches : I -> C -> bool) (quality : I -> Z).
Variable (items : list I) (default : C -> option C * Z -> option C * Z) (unlisted : C -> Z).
Definition Q (c : C) : Z := match first_match matches items c with Some i => quality i | None => unlisted c end.
Hypothesis D : forall c best, 0 <= snd best -> default c best = if unlisted c >? snd best then (Some c, unlisted c) else best.
Definition state_ok (cs : list C) (s : option C * Z) : Prop :=
  0 <= snd s /\ match fst s with Some c => chosen Q cs c /\ snd s = Q c | None => Forall (fun x => Q x <= 0) cs /\ snd s = 0 end.
Lemma select_step_Q best c : 0 <= snd best ->
  select_step matches quality default items best c = if Q c >? snd best then (Some c, Q c) else best.
Proof. intros H. unfold select_step, Q. destruct (first_match matches items c); [reflexivity|now apply D]. Qed.
Lemma step_ok cs s c : state_ok cs s -> state_ok (cs ++ [c]) (select_step matches quality default items s c).
Proof.
  intros [N H]. rewrite select_step_Q by exact N. destruct s as [[b|] q]; cbn [fst snd] in *.
  - destruct H as [(x & y & E & Pb & F1 & F2) Eq]. subst q. destruct (Z.gtb_spec (Q c) (Q b)) as [G|G]; unfold state_ok; cbn [fst snd].
    + split; [lia|]. split; [|reflexivity]. exists cs, []. repeat split; [lia| |constructor]. subst cs.
      apply Forall_app. split; [eapply Forall_impl; [|exact F1]; intros; cbn in *; lia|]. constructor; [lia|].
      eapply Forall_impl; [|exact F2]. intros; cbn in *; lia.
    + split; [exact N|]. split; [|reflexivity]. exists x, (y ++ [c]). subst cs. rewrite <- app_assoc. repeat split; [exact Pb|exact F1|].
      apply Forall_app. split; [exact F2|]. constructor; [lia|constructor].
  - destruct H as [F E]. subst q. destruct (Z.gtb_spec (Q c) 0) as [G|G]; unfold state_ok; cbn [fst snd].
    + split; [lia|]. split; [|reflexivity]. exists cs, []. repeat split; [lia| |constructor].
      eapply Forall_impl; [|exact F]. intros; cbn in *; lia.
    + split; [lia|]. split; [|reflexivity]. apply Forall_app. split; [exact F|]. constructor; [lia|constructor].
Qed.
Lemma fold_ok cs' : forall cs s, state_ok cs s -> state_ok (cs ++ cs') (fold_left (select_step matches quality default items) cs' s).
Proof.
  induction cs' as [|c cs' IH]; intros cs s H; [now rewrite app_nil_r|]. cbn [fold_left].
  replace (cs ++ c :: cs') with ((cs ++ [c]) ++ cs') by now rewrite <- app_assoc. apply IH. now apply step_ok.
Qed.
Lemma select_negotiated cs : negotiated Q cs (select matches quality default items cs).
Proof.
  assert (H : state_ok ([] ++ cs) (fold_left (select_step matches quality default items) cs (None, 0))).
  { apply fold_ok. split; [cbn; lia|]. cbn. split; [constructor|reflexivity]. }
  cbn [app] in H. destruct H as [_ H]. unfold negotiated, select. destruct (fst _); apply H.
Qed.
End Select.
(** The outcome depends on the qualities only. *)
Lemma negotiated_unique {C} (Q Q' : C -> Z) cs r r' : (forall c, In c cs -> Q c = Q' c) ->
  negotiated Q cs r -> negotiated Q' cs r' -> r = r'.
Proof.
  intros E. 
  assert (K : forall c c', chosen Q cs c -> chosen Q' cs c' -> c = c').
  { intros c c' (a & b & X & P1 & A1 & B1) (a' & b' & X' & P2 & A2 & B2).
    assert (I1 : In c cs) by (rewrite X; apply in_app_iff; right; now left).
    assert (I2 : In c' cs) by (rewrite X'; apply in_app_iff; right; now left).
    assert (L1 : Q c' <= Q c).
    { rewrite X in I2. apply in_app_iff in I2 as [I2|[->|I2]]; [|lia|].
      - rewrite Forall_forall in A1. specialize (A1 _ I2). lia.
      - rewrite Forall_forall in B1. now apply B1. }
    assert (L2 : Q' c <= Q' c').
    { rewrite X' in I1. apply in_app_iff in I1 as [I1|[->|I1]]; [|lia|].
      - rewrite Forall_forall in A2. specialize (A2 _ I1). lia.
      - rewrite Forall_forall in B2. now apply B2. }
    rewrite <- !E in L2 by assumption.
    assert (T : Q c = Q c') by lia. rewrite X in X'. clear X.
    assert (E1 : forall x, In x a' -> Q x = Q' x \/ ~ In x cs) by (intros; destruct (Z.eq_dec (Q x) (Q' x)); [now left|right; intros Hx; now apply n, E]).
    assert (ND1 : ~ In c a').
    { intros Hc. rewrite Forall_forall in A2. specialize (A2 _ Hc). rewrite <- !E in A2 by assumption. lia. }
    assert (ND2 : ~ In c' a).
    { intros Hc. rewrite Forall_forall in A1. specialize (A1 _ Hc). lia. }
    clear - X' ND1 ND2. revert a' X' ND1. induction a as [|x a IH]; intros [|y a'] X' ND1; cbn in X'; inversion X'; subst; [reflexivity| | |].
    - exfalso. apply ND1. now left.
    - exfalso. apply ND2. now left.
    - apply (IH (fun H => ND2 (or_intror H)) a'); [assumption|]. intros H. apply ND1. now right. }
  assert (K0 : forall (Q Q' : C -> Z), (forall c, In c cs -> Q c = Q' c) -> forall c, chosen Q cs c -> Forall (fun x => Q' x <= 0) cs -> False).
  { intros R R' ER c (a & b & X & P1 & _) F. assert (I1 : In c cs) by (rewrite X; apply in_app_iff; right; now left).
    rewrite Forall_forall in F. specialize (F _ I1). rewrite <- ER in F by exact I1. lia. }
  intros H H'. destruct r as [c|], r' as [c'|]; cbn in H, H'; [f_equal; now apply K| | |reflexivity]; exfalso.
  - now apply (K0 Q Q' E c).
  - apply (K0 Q' Q (fun c X => eq_sym (E c X)) c'); assumption.
Qed.

(** ** Media types *)
Lemma star_dec s : str_eqb s star = true <-> s = lit "*". Proof. apply str_eqb_eq. Qed.
Lemma dget_In k d v : NoDup (map fst d) -> dget k d = Some v <-> In (k, v) d.
Proof.
  induction d as [|[k' v'] d IH]; intros ND; [easy|]. cbn [map fst] in ND. apply NoDup_cons_iff in ND as [N ND]. cbn [dget].
  destruct (str_eqb k k') eqn:E.
  - apply str_eqb_eq in E. subst k'. split; [intros [= ->]; now left|]. intros [[= ->]|H]; [reflexivity|].
    exfalso. apply N. apply in_map_iff. now exists (k, v).
  - apply str_eqb_neq in E. rewrite IH by exact ND. split; [now right|]. intros [[= -> ->]|H]; [congruence|exact H].
Qed.
Lemma has_param_spec d k n v : NoDup (map fst d) -> has_param d (k, (n, v)) = true <-> exists n', In (k, (n', v)) d.
Proof.
  intros ND. unfold has_param. cbn [fst snd]. split.
  - destruct (dget k d) as [[n' v']|] eqn:E; [|discriminate]. intros H. apply str_eqb_eq in H. subst v'. exists n'. now apply dget_In.
  - intros [n' H]. apply dget_In in H; [|exact ND]. rewrite H. apply str_eqb_refl.
Qed.
Lemma match_covers r m : NoDup (map fst (m_params m)) -> MatchMediaType r m = true <-> covers r m.
Proof.
  intros ND. unfold MatchMediaType, covers. destruct (str_eqb (m_type r) star) eqn:E1.
  { apply star_dec in E1. split; [now left|reflexivity]. }
  destruct (str_eqb (lower (m_type r)) (lower (m_type m))) eqn:E2; cbn [negb].
  2:{ apply str_eqb_neq in E2. split; [discriminate|]. intros [H|[H _]]; [apply star_dec in H; congruence|congruence]. }
  apply str_eqb_eq in E2. destruct (str_eqb (m_sub r) star) eqn:E3.
  { apply star_dec in E3. split; [|reflexivity]. intros _. right. split; [exact E2|now left]. }
  destruct (str_eqb (lower (m_sub r)) (lower (m_sub m))) eqn:E4; cbn [negb].
  2:{ apply str_eqb_neq in E4. split; [discriminate|].
      intros [H|[_ [H|[H _]]]]; [apply star_dec in H; congruence|apply star_dec in H; congruence|congruence]. }
  apply str_eqb_eq in E4. rewrite forallb_forall. split.
  - intros H. right. split; [exact E2|]. right. split; [exact E4|]. intros k n v Hi. apply (has_param_spec _ k n v ND). now apply H.
  - intros [H|[_ [H|[_ H]]]]; [apply star_dec in H; congruence|apply star_dec in H; congruence|].
    intros [k [n v]] Hi. apply has_param_spec; [exact ND|]. now apply (H k n v).
Qed.
Lemma match_eq r s m : range_cmp r s = Eq -> MatchMediaType r m = MatchMediaType s m.
Proof.
  unfold range_cmp, CompareTypes. intros H. unfold MatchMediaType.
  destruct (str_eqb (m_type r) star) eqn:A1, (str_eqb (m_type s) star) eqn:A2; try discriminate H; [reflexivity|].
  destruct (scmp (lower (m_type r)) (lower (m_type s))) eqn:T; try discriminate H. apply scmp_eq in T. rewrite T.
  destruct (negb (str_eqb (lower (m_type s)) (lower (m_type m)))); [reflexivity|].
  destruct (str_eqb (m_sub r) star) eqn:B1, (str_eqb (m_sub s) star) eqn:B2; try discriminate H; [reflexivity|].
  destruct (scmp (lower (m_sub r)) (lower (m_sub s))) eqn:U; try discriminate H. apply scmp_eq in U. rewrite U.
  destruct (negb (str_eqb (lower (m_sub s)) (lower (m_sub m)))); [reflexivity|].
  destruct (_ ?= _)%nat; try discriminate H. apply dict_cmp_eq in H.
  assert (PM : Permutation (m_params r) (m_params s)).
  { rewrite <- (sort_perm by_key (m_params r)), H. apply sort_perm. }
  apply eq_true_iff_eq. rewrite !forallb_forall. split; intros K x Hx; apply K; [now rewrite PM|now rewrite <- PM].
Qed.
(** Ranges that cover the same type, in the order of the list *)
Lemma cmp_covers r s m : NoDup (map fst (m_params m)) -> wf_range r -> wf_range s -> covers r m -> covers s m -> range_cmp r s <> Gt ->
  ~ more_specific s r.
Proof.
  intros ND Wr Ws Cr Cs. unfold more_specific, breadth, range_cmp, CompareTypes. unfold covers, wf_range in *.
  change star with (lit "*"). intros H.
  destruct (str_eqb (m_type r) (lit "*")) eqn:A1, (str_eqb (m_type s) (lit "*")) eqn:A2; try congruence.
  - apply str_eqb_eq in A1, A2. rewrite (Wr A1), (Ws A2) in H. rewrite str_eqb_refl in H.
    destruct (Nat.compare_spec (length (m_params s)) (length (m_params r))); try congruence; lia.
  - destruct (str_eqb (m_sub r) (lit "*")); lia.
  - destruct Cr as [Cr|[Cr1 Cr2]]; [apply str_eqb_eq in Cr; congruence|].
    destruct Cs as [Cs|[Cs1 Cs2]]; [apply str_eqb_eq in Cs; congruence|].
    rewrite Cr1, Cs1, (proj2 (scmp_eq _ _) eq_refl) in H.
    destruct (str_eqb (m_sub r) (lit "*")) eqn:B1, (str_eqb (m_sub s) (lit "*")) eqn:B2; try congruence.
    + destruct (Nat.compare_spec (length (m_params s)) (length (m_params r))); try congruence; lia.
    + lia.
    + destruct Cr2 as [Cr2|[Cr2 _]]; [apply str_eqb_eq in Cr2; congruence|].
      destruct Cs2 as [Cs2|[Cs2 _]]; [apply str_eqb_eq in Cs2; congruence|].
      rewrite Cr2, Cs2, (proj2 (scmp_eq _ _) eq_refl) in H.
      destruct (Nat.compare_spec (length (m_params s)) (length (m_params r))); try congruence; lia.
Qed.
Lemma cmp_same r s m : NoDup (map fst (m_params r)) -> NoDup (map fst (m_params s)) -> wf_range r -> wf_range s -> covers r m -> covers s m ->
  breadth s = breadth r -> same_params (m_params s) (m_params r) -> range_cmp r s = Eq.
Proof.
  intros N1 N2 Wr Ws Cr Cs B SP0. unfold breadth, range_cmp, CompareTypes, covers, wf_range in *. change star with (lit "*").
  assert (PM : Permutation (m_params s) (m_params r)).
  { apply NoDup_Permutation; [now apply NoDup_map_inv in N2|now apply NoDup_map_inv in N1|exact SP0]. }
  assert (Z1 : (length (m_params s) ?= length (m_params r))%nat = Eq) by (apply Nat.compare_eq_iff, Permutation_length, PM).
  assert (Z2 : dict_cmp (m_params r) (m_params s) = Eq).
  { unfold dict_cmp. replace (sort by_key (m_params s)) with (sort by_key (m_params r)).
    - rewrite entries_lexc. apply (lexc_refl entry_cmp entry_preorder).
    - apply (sort_unique by_key by_key_preorder); [|now symmetry]. intros [k v] [k' v'] I1 I2 X. unfold by_key in X. cbn [fst] in X.
      apply scmp_eq in X. subst k'. f_equal. apply (proj2 (dget_In k _ v N1)) in I1. apply (proj2 (dget_In k _ v' N1)) in I2. congruence. }
  rewrite Z1, Z2.
  destruct (str_eqb (m_type r) (lit "*")) eqn:A1, (str_eqb (m_type s) (lit "*")) eqn:A2;
    try (destruct (str_eqb (m_sub r) (lit "*")); discriminate B); try (destruct (str_eqb (m_sub s) (lit "*")); discriminate B).
  - apply str_eqb_eq in A1, A2. rewrite (Wr A1), (Ws A2), str_eqb_refl. reflexivity.
  - destruct Cr as [Cr|[Cr1 Cr2]]; [apply str_eqb_eq in Cr; congruence|].
    destruct Cs as [Cs|[Cs1 Cs2]]; [apply str_eqb_eq in Cs; congruence|].
    rewrite Cr1, Cs1, (proj2 (scmp_eq _ _) eq_refl).
    destruct (str_eqb (m_sub r) (lit "*")) eqn:B1, (str_eqb (m_sub s) (lit "*")) eqn:B2; try discriminate B; [reflexivity|].
    destruct Cr2 as [Cr2|[Cr2 _]]; [apply str_eqb_eq in Cr2; congruence|].
    destruct Cs2 as [Cs2|[Cs2 _]]; [apply str_eqb_eq in Cs2; congruence|].
    now rewrite Cr2, Cs2, (proj2 (scmp_eq _ _) eq_refl).
Qed.
Definition QM (l : list accept) : media -> Z := Q (fun a m => MatchMediaType (a_range a) m) a_q (AcceptList l) (fun _ => 0).
Lemma QM_quality l m : Forall range_ok l -> type_ok m -> media_quality l m (QM l m).
Proof.
  intros F ND. unfold QM, Q, first_match, AcceptList. rewrite Forall_forall in F.
  destruct (find _ _) as [a|] eqn:E.
  - apply (find_sort accept_cmp accept_preorder) in E as (I1 & Ma & Min). right. exists a. split; [exact I1|].
    apply match_covers in Ma as Ca; [|exact ND]. split; [exact Ca|]. split; [reflexivity|]. intros b Ib Cb.
    pose proof Cb as Mb. apply (proj2 (match_covers _ _ ND)) in Mb. specialize (Min b Ib Mb). unfold accept_cmp in Min.
    destruct (F a I1) as [Wa Na]. destruct (F b Ib) as [Wb Nb]. split.
    + apply (cmp_covers _ _ m); try assumption. destruct (range_cmp (a_range a) (a_range b)); congruence.
    + intros B S0. assert (X : range_cmp (a_range a) (a_range b) = Eq) by (apply (cmp_same _ _ m); assumption). rewrite X in Min.
      destruct (Z.compare_spec (a_q b) (a_q a)); try congruence; lia.
  - left. split; [reflexivity|]. intros a Ia Ca. apply (find_sort_none accept_cmp) with (j := a) in E; [|exact Ia].
    apply (proj2 (match_covers _ _ ND)) in Ca. congruence.
Qed.
Lemma SelectType_negotiated l cs : negotiated (QM l) cs (SelectType (AcceptList l) cs).
Proof.
  unfold SelectType. apply select_negotiated. intros c best H. unfold no_default. now replace (0 >? snd best) with false by lia.
Qed.
Lemma QM_perm l l' m : Permutation l l' -> QM l m = QM l' m.
Proof.
  intros PM. unfold QM, Q, first_match, AcceptList.
  destruct (find _ (sort accept_cmp l)) as [a|] eqn:E, (find _ (sort accept_cmp l')) as [b|] eqn:E'.
  - apply (find_sort accept_cmp accept_preorder) in E as (I1 & Ma & Min). apply (find_sort accept_cmp accept_preorder) in E' as (I2 & Mb & Min').
    assert (L1 : accept_cmp a b <> Gt) by (apply Min; [now rewrite PM|exact Mb]).
    assert (L2 : accept_cmp b a <> Gt) by (apply Min'; [now rewrite <- PM|exact Ma]).
    rewrite (pre_opp accept_cmp accept_preorder a b) in L2. destruct (accept_cmp a b) eqn:C; try easy.
    unfold accept_cmp in C. destruct (range_cmp _ _); try discriminate. apply Z.compare_eq in C. now symmetry.
  - apply find_some in E as [I1 Ma]. rewrite (sort_perm accept_cmp) in I1. rewrite PM in I1.
    apply (proj1 (find_sort_none accept_cmp _ _)) with (j := a) in E'; [|exact I1]. cbn beta in *. congruence.
  - apply find_some in E' as [I1 Ma]. rewrite (sort_perm accept_cmp) in I1. rewrite <- PM in I1.
    apply (proj1 (find_sort_none accept_cmp _ _)) with (j := b) in E; [|exact I1]. cbn beta in *. congruence.
  - reflexivity.
Qed.
Lemma SelectType_perm l l' cs : Permutation l l' -> SelectType (AcceptList l) cs = SelectType (AcceptList l') cs.
Proof.
  intros PM. apply (negotiated_unique (QM l) (QM l') cs); [intros; now apply QM_perm|apply SelectType_negotiated|apply SelectType_negotiated].
Qed.

(** ** Tokens *)
Definition QT (l : list atoken) (unlisted : str -> Z) : str -> Z := Q token_matches at_q (AcceptTokenList l) unlisted.
Lemma star_lower t : lower t = star <-> t = lit "*".
Proof.
  split; [|now intros ->]. unfold lower. change star with [42]. change (lit "*") with [42]. destruct t as [|c [|d t]]; try discriminate.
  cbn [map]. intros H. inversion H. destruct ((c >=? 65) && (c <=? 90)) eqn:E; f_equal; lia.
Qed.
Lemma token_matches_spec a t : token_matches a t = true <-> names a t \/ at_token a = lit "*".
Proof.
  unfold token_matches, names. rewrite orb_true_iff, !str_eqb_eq, star_lower. reflexivity.
Qed.
Lemma names_star a t : names a t -> at_token a = lit "*" -> t = lit "*".
Proof. unfold names. intros H E. rewrite E in H. apply star_lower. now rewrite <- H. Qed.
Lemma QT_quality l u t : token_quality l u t (QT l u t).
Proof.
  unfold QT, Q, first_match, AcceptTokenList. destruct (find _ _) as [a|] eqn:E.
  - apply (find_sort atoken_cmp atoken_preorder) in E as (I1 & Ma & Min). apply token_matches_spec in Ma.
    assert (Min' : forall b, In b l -> names b t \/ at_token b = lit "*" -> atoken_cmp a b <> Gt)
      by (intros b Ib Hb; apply Min; [exact Ib|now apply token_matches_spec]). clear Min.
    assert (K : forall b, In b l -> names b t \/ at_token b = lit "*" ->
      (at_token a = lit "*" -> at_token b = lit "*" -> at_q b <= at_q a) /\
      (at_token a <> lit "*" -> names a t -> names b t -> at_q b <= at_q a) /\
      (at_token a = lit "*" -> at_token b <> lit "*" -> False)).
    { intros b Ib Hb. specialize (Min' b Ib Hb). unfold atoken_cmp in Min'. repeat split.
      - intros X Y. apply star_dec in X, Y. rewrite X, Y in Min'. destruct (Z.compare_spec (at_q b) (at_q a)); try congruence; lia.
      - intros X Na Nb. destruct (str_eqb (at_token a) star) eqn:S1; [apply star_dec in S1; congruence|].
        destruct (str_eqb (at_token b) star) eqn:S2.
        + apply star_dec in S2. exfalso. apply X. apply star_lower. unfold names in *. rewrite Na, <- Nb. now apply star_lower.
        + unfold names in *. rewrite Na, Nb, (proj2 (scmp_eq _ _) eq_refl) in Min'. destruct (Z.compare_spec (at_q b) (at_q a)); try congruence; lia.
      - intros X Y. apply star_dec in X. rewrite X in Min'. destruct (str_eqb (at_token b) star) eqn:S2; [now apply star_dec in S2|congruence]. }
    destruct (list_eq_dec Z.eq_dec (lower (at_token a)) (lower t)) as [Na|Na].
    + left. split; [now exists a|]. intros b Ib Nb. destruct (K b Ib (or_introl Nb)) as (K1 & K2 & K3).
      destruct (list_eq_dec Z.eq_dec (at_token a) (lit "*")) as [S1|S1].
      * apply K1; [exact S1|]. apply star_lower. unfold names in *. rewrite Nb, <- Na. now apply star_lower.
      * now apply K2.
    + destruct Ma as [Ma|Ma]; [easy|]. right. split.
      * intros b Ib Nb. destruct (K b Ib (or_introl Nb)) as (_ & _ & K3). apply K3; [exact Ma|]. intros X. apply Na.
        unfold names in Nb. now rewrite <- Nb, X, Ma.
      * left. split; [now exists a|]. intros b Ib Sb. destruct (K b Ib (or_intror Sb)) as (K1 & _). now apply K1.
  - right. assert (K : forall a, In a l -> ~ names a t /\ at_token a <> lit "*").
    { intros a Ia. apply (find_sort_none atoken_cmp) with (j := a) in E; [|exact Ia]. cbn beta in E.
      assert (~ (names a t \/ at_token a = lit "*")) by (intros H; apply token_matches_spec in H; congruence). tauto. }
    split; [intros a Ia; now apply K|]. right. split; [intros a Ia; now apply K|reflexivity].
Qed.
Lemma greatest_unique q q' l l' p : Permutation l l' -> greatest q l p -> greatest q' l' p -> q = q'.
Proof.
  intros PM [(a & I1 & P1 & <-) M1] [(b & I2 & P2 & <-) M2].
  assert (X1 : at_q b <= at_q a) by (apply M1; [now rewrite PM|exact P2]).
  assert (X2 : at_q a <= at_q b) by (apply M2; [now rewrite <- PM|exact P1]). lia.
Qed.
Lemma token_quality_unique l l' u t q q' : Permutation l l' -> token_quality l u t q -> token_quality l' u t q' -> q = q'.
Proof.
  intros PM H H'.
  assert (N : forall p q, greatest q l p -> (forall a, In a l' -> ~ p a) -> False).
  { intros p x [(a & I1 & P1 & _) _] X. apply (X a); [now rewrite <- PM|exact P1]. }
  assert (N' : forall p q, greatest q l' p -> (forall a, In a l -> ~ p a) -> False).
  { intros p x [(a & I1 & P1 & _) _] X. apply (X a); [now rewrite PM|exact P1]. }
  destruct H as [H|[H0 [H|[H1 H]]]], H' as [H'|[H0' [H'|[H1' H']]]];
    try (now apply (greatest_unique q q' l l' _ PM H H')); try congruence; exfalso; eauto.
Qed.
Lemma select_tokens_negotiated l default u cs :
  (forall c best, 0 <= snd best -> default c best = if u c >? snd best then (Some c, u c) else best) ->
  negotiated (QT l u) cs (select token_matches at_q default (AcceptTokenList l) cs).
Proof. intros D. now apply select_negotiated. Qed.
Lemma SelectToken_negotiated l cs : negotiated (QT l (fun _ => 0)) cs (SelectToken (AcceptTokenList l) cs).
Proof. apply select_tokens_negotiated. intros c best H. unfold no_default. now replace (0 >? snd best) with false by lia. Qed.
Lemma SelectCharset_negotiated l cs : negotiated (QT l charset_unlisted) cs (SelectCharset (AcceptTokenList l) cs).
Proof.
  apply select_tokens_negotiated. intros c best H. unfold charset_default, charset_unlisted.
  destruct (str_eqb _ _); [reflexivity|]. now replace (0 >? snd best) with false by lia.
Qed.

Lemma free_identity_none l t : free_identity l t <->
  lower t = lit "identity" /\ first_match token_matches (AcceptTokenList l) t = None.
Proof.
  unfold free_identity, first_match, AcceptTokenList. rewrite (find_sort_none atoken_cmp). split; intros [H K]; split; try exact H; intros a Ia; specialize (K a Ia).
  - destruct (token_matches a t) eqn:E; [|reflexivity]. apply token_matches_spec in E. tauto.
  - assert (X : ~ (names a t \/ at_token a = lit "*")) by (intros X; apply token_matches_spec in X; congruence). tauto.
Qed.
Definition encoding_state (l : list atoken) (cs : list str) (s : option str * Z) : Prop :=
  let Qe := QT l (fun _ => 0) in
  (0 < snd s /\ exists c, fst s = Some c /\ chosen Qe cs c /\ snd s = Qe c) \/
  snd s = 0 /\ Forall (fun x => Qe x <= 0) cs /\
  match fst s with
  | Some c => In c cs /\ free_identity l c
  | None => Forall (fun x => ~ free_identity l x) cs
  end.
Lemma encoding_step l cs s c : encoding_state l cs s ->
  encoding_state l (cs ++ [c]) (select_step token_matches at_q encoding_default (AcceptTokenList l) s c).
Proof.
  intros H. unfold select_step. set (Qe := QT l (fun _ => 0)) in *.
  assert (QE : Qe c = match first_match token_matches (AcceptTokenList l) c with Some i => at_q i | None => 0 end) by reflexivity.
  destruct H as [(P0 & b & Eb & Cb & Es)|(Z0 & F & M)].
  - destruct s as [o q]. cbn [fst snd] in *. subst o q. fold Qe in Cb. change (0 < Qe b) in P0.
    assert (Keep : Qe c <= Qe b -> encoding_state l (cs ++ [c]) (Some b, Qe b)).
    { intros G. left. cbn [fst snd]. split; [exact P0|]. exists b. repeat split; try reflexivity.
      destruct Cb as (x & y & E & Pb & F1 & F2). exists x, (y ++ [c]). subst cs. rewrite <- app_assoc. repeat split; [exact Pb|exact F1|].
      apply Forall_app. split; [exact F2|]. constructor; [exact G|constructor]. }
    destruct (first_match token_matches (AcceptTokenList l) c) as [i|] eqn:E.
    + cbn [snd]. change (QT l (fun _ => 0) b) with (Qe b). destruct (Z.gtb_spec (at_q i) (Qe b)) as [G|G].
      * left. cbn [fst snd]. split; [clear -G P0; lia|]. exists c. repeat split; [|now rewrite <- QE].
        destruct Cb as (x & y & E0 & Pb & F1 & F2). exists cs, []. fold Qe. rewrite QE. repeat split; [lia| |constructor]. subst cs.
        apply Forall_app. split; [eapply Forall_impl; [|exact F1]; intros; cbn beta in *; lia|]. constructor; [lia|].
        eapply Forall_impl; [|exact F2]. intros; cbn beta in *; lia.
      * apply Keep. lia.
    + unfold encoding_default. cbn [snd]. change (QT l (fun _ => 0) b) with (Qe b).
      replace (Qe b =? 0) with false by lia. destruct (str_eqb _ _); apply Keep; lia.
  - destruct s as [o q]. cbn [fst snd] in *. subst q. fold Qe in F.
    assert (Keep : Qe c <= 0 -> ~ free_identity l c -> encoding_state l (cs ++ [c]) (o, 0)).
    { intros G NF. right. cbn [fst snd]. split; [reflexivity|]. split; [apply Forall_app; split; [exact F|constructor; [exact G|constructor]]|].
      destruct o as [b|]; [destruct M as [Ib Fb]; split; [apply in_app_iff; now left|exact Fb]|].
      apply Forall_app. split; [exact M|]. constructor; [exact NF|constructor]. }
    destruct (first_match token_matches (AcceptTokenList l) c) as [i|] eqn:E.
    + cbn [snd]. destruct (Z.gtb_spec (at_q i) 0) as [G|G].
      * left. cbn [fst snd]. split; [exact G|]. exists c. repeat split; [|now rewrite <- QE].
        exists cs, []. fold Qe. rewrite QE. repeat split; [exact G| |constructor].
        eapply Forall_impl; [|exact F]. intros; cbn beta in *; lia.
      * apply Keep; [lia|]. intros X. apply free_identity_none in X as [_ X]. congruence.
    + unfold encoding_default. cbn [snd]. change (0 =? 0) with true. cbn iota. destruct (str_eqb (lower c) (lit "identity")) eqn:EI.
      * apply str_eqb_eq in EI. right. cbn [fst snd]. split; [reflexivity|].
        split; [apply Forall_app; split; [exact F|constructor; [fold Qe; lia|constructor]]|].
        split; [apply in_app_iff; right; now left|]. apply free_identity_none. now split.
      * apply Keep; [lia|]. intros [X _]. apply str_eqb_neq in EI. congruence.
Qed.
Lemma encoding_fold l cs' : forall cs s, encoding_state l cs s ->
  encoding_state l (cs ++ cs') (fold_left (select_step token_matches at_q encoding_default (AcceptTokenList l)) cs' s).
Proof.
  induction cs' as [|c cs' IH]; intros cs s H; [now rewrite app_nil_r|]. cbn [fold_left].
  replace (cs ++ c :: cs') with ((cs ++ [c]) ++ cs') by now rewrite <- app_assoc. apply IH. now apply encoding_step.
Qed.
Lemma SelectEncoding_spec l cs : match SelectEncoding (AcceptTokenList l) cs with
  | Some c => chosen (QT l (fun _ => 0)) cs c \/ Forall (fun x => QT l (fun _ => 0) x <= 0) cs /\ In c cs /\ free_identity l c
  | None => Forall (fun x => QT l (fun _ => 0) x <= 0) cs /\ Forall (fun x => ~ free_identity l x) cs
  end.
Proof.
  assert (H : encoding_state l ([] ++ cs) (fold_left (select_step token_matches at_q encoding_default (AcceptTokenList l)) cs (None, 0))).
  { apply encoding_fold. right. cbn. repeat split; constructor. }
  cbn [app] in H. unfold SelectEncoding, select. destruct H as [(_ & c & E & C & _)|(_ & F & M)].
  - rewrite E. now left.
  - destruct (fst _) as [c|]; [right|]; now split.
Qed.

(** ** Languages *)
Definition QL (l : list atoken) : lang -> Z := Q (fun a t => PartialMatch t (lang_range a)) at_q (AcceptLanguageList l) (fun _ => 0).
Lemma language_cmp_range a b : language_cmp a b = Eq <-> lang_range a = lang_range b.
Proof.
  unfold language_cmp. split.
  - destruct (_ ?= _)%nat; try discriminate. apply tag_cmp_eq.
  - intros ->. rewrite Nat.compare_refl. now apply tag_cmp_eq.
Qed.
Lemma QL_quality l t : language_quality l t (QL l t).
Proof.
  unfold QL, Q, first_match, AcceptLanguageList.
  assert (MT : forall a, PartialMatch t (lang_range a) = true <-> covers_tag a t) by (intros a; apply PartialMatch_spec).
  destruct (find _ _) as [a|] eqn:E.
  - right. pose proof E as E1. apply (find_sort language_cmp language_preorder) in E as (I1 & Ma & Min).
    apply (find_first language_cmp language_preorder) in E1 as (x & y & El & F).
    2:{ intros p q H. apply language_cmp_range in H. now rewrite H. }
    exists x, a, y. split; [exact El|]. split; [now apply MT|]. split; [reflexivity|]. split.
    + intros b Ib Cb. apply MT in Cb. specialize (Min b Ib Cb). unfold language_cmp in Min.
      change (range_parts b) with (lang_range b). change (range_parts a) with (lang_range a).
      destruct (Nat.compare_spec (length (lang_range b)) (length (lang_range a))); try congruence; lia.
    + eapply Forall_impl; [|exact F]. cbn beta. intros b H X. apply H, language_cmp_range. now symmetry.
  - left. split; [reflexivity|]. intros a Ia Ca. apply MT in Ca. apply (find_sort_none language_cmp) with (j := a) in E; [|exact Ia].
    cbn beta in E. congruence.
Qed.
Lemma SelectLanguage_negotiated l cs : negotiated (QL l) cs (SelectLanguage (AcceptLanguageList l) cs).
Proof.
  unfold SelectLanguage. apply select_negotiated. intros c best H. unfold no_default. now replace (0 >? snd best) with false by lia.
Qed.
