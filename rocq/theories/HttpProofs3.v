(** Comparisons and sorting. *)
From Coq Require Import Lia Zify Permutation Sorted.
From Verif Require Import Py Iso Dec XmlUtils Imscp HttpCore HttpParams HttpHeaders HttpSpec.
Open Scope Z_scope.

Section Orders.
Context {A : Type} (cmp : A -> A -> comparison) (P : preorder cmp).
Lemma pre_refl a : cmp a a = Eq. Proof. apply P. Qed.
Lemma pre_opp a b : cmp b a = CompOpp (cmp a b). Proof. apply P. Qed.
Lemma pre_le_trans a b c : cmp a b <> Gt -> cmp b c <> Gt -> cmp a c <> Gt. Proof. apply P. Qed.
Lemma pre_lt_le a b c : cmp a b = Lt -> cmp b c <> Gt -> cmp a c = Lt.
Proof.
  intros H1 H2. destruct (cmp a c) eqn:E; [|reflexivity|].
  - exfalso. assert (cmp b a <> Gt).
    { apply (pre_le_trans b c a); [exact H2|]. rewrite (pre_opp a c), E. discriminate. }
    rewrite (pre_opp a b), H1 in H. now apply H.
  - exfalso. apply (pre_le_trans a b c); [now rewrite H1|exact H2|exact E].
Qed.
Lemma pre_le_lt a b c : cmp a b <> Gt -> cmp b c = Lt -> cmp a c = Lt.
Proof.
  intros H1 H2. destruct (cmp a c) eqn:E; [|reflexivity|].
  - exfalso. assert (cmp c b <> Gt).
    { apply (pre_le_trans c a b); [|exact H1]. rewrite (pre_opp a c), E. discriminate. }
    rewrite (pre_opp b c), H2 in H. now apply H.
  - exfalso. apply (pre_le_trans a b c); [exact H1|now rewrite H2|exact E].
Qed.
Lemma pre_eq_trans a b c : cmp a b = Eq -> cmp b c = Eq -> cmp a c = Eq.
Proof.
  intros H1 H2. assert (X : cmp a c <> Gt) by (apply (pre_le_trans a b c); congruence).
  assert (Y : cmp c a <> Gt).
  { apply (pre_le_trans c b a); [rewrite (pre_opp b c), H2|rewrite (pre_opp a b), H1]; discriminate. }
  rewrite (pre_opp a c) in Y. destruct (cmp a c); [reflexivity| |]; now exfalso; apply Y || apply X.
Qed.
Lemma pre_eq_l a b c : cmp a b = Eq -> cmp a c = cmp b c.
Proof.
  intros H. assert (H' : cmp b a = Eq) by now rewrite (pre_opp a b), H.
  destruct (cmp b c) eqn:E.
  - now apply (pre_eq_trans a b c).
  - apply (pre_le_lt a b c); congruence.
  - destruct (cmp a c) eqn:E2; [| |reflexivity].
    + rewrite (pre_eq_trans b a c) in E; [discriminate|exact H'|exact E2].
    + rewrite (pre_le_lt b a c) in E; [discriminate|congruence|exact E2].
Qed.

(** Lexicographic comparison; [short]: how a list compares with its own continuations *)
Variable short : comparison.
Hypothesis S : short <> Eq.
Fixpoint lexc (a b : list A) : comparison :=
  match a, b with
  | [], [] => Eq
  | [], _ => short
  | _, [] => CompOpp short
  | x :: a', y :: b' => match cmp x y with Eq => lexc a' b' | c => c end
  end.
Lemma lexc_refl a : lexc a a = Eq.
Proof. induction a as [|x a IH]; [reflexivity|]. cbn. now rewrite pre_refl. Qed.
Lemma lexc_opp a : forall b, lexc b a = CompOpp (lexc a b).
Proof.
  induction a as [|x a IH]; intros [|y b]; cbn; [reflexivity|reflexivity|now destruct short|].
  rewrite (pre_opp x y). destruct (cmp x y); cbn; [apply IH|reflexivity|reflexivity].
Qed.
Lemma lexc_trans a : forall b c, lexc a b <> Gt -> lexc b c <> Gt -> lexc a c <> Gt.
Proof.
  induction a as [|x a IH]; intros [|y b] [|z c]; cbn; intros H1 H2; try easy.
  - destruct short; cbn in *; easy.
  - destruct (cmp x y) eqn:E1.
    + rewrite (pre_eq_l x y z E1). destruct (cmp y z); [now apply (IH b)|easy|easy].
    + rewrite (pre_lt_le x y z); [easy|exact E1|]. destruct (cmp y z); easy.
    + now exfalso.
Qed.
Lemma lexc_preorder : preorder lexc.
Proof. repeat split; [apply lexc_refl|intros; apply lexc_opp|intros a b c; apply lexc_trans]. Qed.
Lemma lexc_eq : (forall x y, cmp x y = Eq -> x = y) -> forall a b, lexc a b = Eq -> a = b.
Proof.
  intros H. induction a as [|x a IH]; intros [|y b]; cbn; intros E; try easy.
  - destruct short; easy.
  - destruct (cmp x y) eqn:X; [|easy|easy]. f_equal; [now apply H|now apply IH].
Qed.
End Orders.

(** Two comparisons one after the other *)
Definition thenc (a b : comparison) : comparison := match a with Eq => b | c => c end.
Lemma then_preorder {A} (f g : A -> A -> comparison) : preorder f -> preorder g ->
  preorder (fun a b => thenc (f a b) (g a b)).
Proof.
  intros F G. repeat split.
  - intros a. now rewrite (pre_refl f F), (pre_refl g G).
  - intros a b. rewrite (pre_opp f F a b), (pre_opp g G a b). now destruct (f a b).
  - intros a b c H1 H2. destruct (f a b) eqn:E1; cbn in H1; [| |easy].
    + rewrite (pre_eq_l f F a b c E1). destruct (f b c); cbn in *; [|easy|easy].
      now apply (pre_le_trans g G a b c).
    + rewrite (pre_lt_le f F a b c E1); [easy|]. destruct (f b c); easy.
Qed.
Lemma map_preorder {A B} (h : A -> B) (f : B -> B -> comparison) : preorder f ->
  preorder (fun a b => f (h a) (h b)).
Proof. intros F. repeat split; intros; [apply F|apply F|eapply F; eassumption]. Qed.
Lemma flip_preorder {A} (f : A -> A -> comparison) : preorder f -> preorder (fun a b => f b a).
Proof.
  intros F. repeat split.
  - intros a. apply F.
  - intros a b. apply F.
  - intros a b c H1 H2. now apply (pre_le_trans f F c b a).
Qed.
Lemma Z_preorder : preorder Z.compare.
Proof.
  repeat split; [apply Z.compare_refl|intros; apply Z.compare_antisym|]. intros a b c.
  rewrite !Z.compare_le_iff. lia.
Qed.
Lemma nat_preorder : preorder Nat.compare.
Proof.
  repeat split; [apply Nat.compare_refl|intros; apply Nat.compare_antisym|]. intros a b c.
  rewrite !Nat.compare_le_iff. lia.
Qed.
Lemma preorder_ext {A} (f g : A -> A -> comparison) : (forall a b, f a b = g a b) -> preorder f -> preorder g.
Proof.
  intros E F. repeat split; intros *; rewrite <- !E; apply F.
Qed.

(** ** The comparisons of the model *)
Lemma scmp_lexc a : forall b, scmp a b = lexc Z.compare Lt a b.
Proof. induction a as [|x a IH]; intros [|y b]; cbn; try reflexivity; now rewrite IH. Qed.
Lemma scmp_preorder : preorder scmp.
Proof.
  apply (preorder_ext (lexc Z.compare Lt)); [intros; symmetry; apply scmp_lexc|].
  apply lexc_preorder; [apply Z_preorder|discriminate].
Qed.
Lemma scmp_eq a b : scmp a b = Eq <-> a = b.
Proof.
  split; [|intros ->; apply scmp_preorder]. rewrite scmp_lexc. apply lexc_eq; [discriminate|].
  intros x y. apply Z.compare_eq.
Qed.
Lemma scmp_lt a : forall b, scmp a b = Lt <-> lex_lt Z.lt a b.
Proof.
  induction a as [|x a IH]; intros [|y b]; cbn.
  - split; [discriminate|inversion 1].
  - split; [constructor|reflexivity].
  - split; [discriminate|inversion 1].
  - destruct (Z.compare_spec x y) as [->|H|H].
    + rewrite IH. split; [now constructor|inversion 1; [lia|assumption]].
    + split; [now constructor|reflexivity].
    + split; [discriminate|inversion 1; lia].
Qed.
Lemma tag_cmp_lexc a : forall b, tag_cmp a b = lexc scmp Lt a b.
Proof. induction a as [|x a IH]; intros [|y b]; cbn; try reflexivity; now rewrite IH. Qed.
Lemma tag_preorder : preorder tag_cmp.
Proof.
  apply (preorder_ext (lexc scmp Lt)); [intros; symmetry; apply tag_cmp_lexc|].
  apply lexc_preorder; [apply scmp_preorder|discriminate].
Qed.
Lemma tag_cmp_eq a b : tag_cmp a b = Eq <-> a = b.
Proof.
  split; [|intros ->; apply tag_preorder]. rewrite tag_cmp_lexc. apply lexc_eq; [discriminate|].
  intros x y. apply scmp_eq.
Qed.
Lemma vcmp_preorder : preorder vcmp.
Proof.
  repeat split.
  - intros [x|x]; cbn; [apply Z.compare_refl|apply scmp_preorder].
  - intros [x|x] [y|y]; cbn; try reflexivity; [apply Z.compare_antisym|apply scmp_preorder].
  - intros [x|x] [y|y] [z|z]; cbn; try easy; [apply (pre_le_trans _ Z_preorder)|apply (pre_le_trans _ scmp_preorder)].
Qed.
Lemma vcmp_eq a b : vcmp a b = Eq -> a = b.
Proof.
  destruct a, b; cbn; try easy; intros H; f_equal; [now apply Z.compare_eq|now apply scmp_eq].
Qed.
Lemma item_cmp_lexc a : forall b, item_cmp a b = lexc vcmp Gt a b.
Proof. induction a as [|x a IH]; intros [|y b]; cbn; try reflexivity; now rewrite IH. Qed.
Lemma item_preorder : preorder item_cmp.
Proof.
  apply (preorder_ext (lexc vcmp Gt)); [intros; symmetry; apply item_cmp_lexc|].
  apply lexc_preorder; [apply vcmp_preorder|discriminate].
Qed.
Lemma item_cmp_eq a b : item_cmp a b = Eq <-> a = b.
Proof.
  split; [|intros ->; apply item_preorder]. rewrite item_cmp_lexc. apply lexc_eq; [discriminate|apply vcmp_eq].
Qed.
Lemma items_cmp_lexc a : forall b, items_cmp a b = lexc item_cmp Lt a b.
Proof. induction a as [|x a IH]; intros [|y b]; cbn; try reflexivity; now rewrite IH. Qed.
Lemma items_preorder : preorder items_cmp.
Proof.
  apply (preorder_ext (lexc item_cmp Lt)); [intros; symmetry; apply items_cmp_lexc|].
  apply lexc_preorder; [apply item_preorder|discriminate].
Qed.
Lemma items_cmp_eq a b : items_cmp a b = Eq <-> a = b.
Proof.
  split; [|intros ->; apply items_preorder]. rewrite items_cmp_lexc. apply lexc_eq; [discriminate|].
  intros x y. apply item_cmp_eq.
Qed.
Ltac thens := intros; unfold thenc; repeat match goal with |- context [match ?x with _ => _ end] => destruct x end; reflexivity.
Lemma product_preorder : preorder product_cmp.
Proof.
  eapply preorder_ext; [intros a b; unfold product_cmp;
    instantiate (1 := fun a b => thenc (scmp (p_token a) (p_token b)) (items_cmp (p_exploded a) (p_exploded b))); thens|].
  apply (then_preorder (fun a b => scmp (p_token a) (p_token b)) (fun a b => items_cmp (p_exploded a) (p_exploded b))).
  - apply map_preorder, scmp_preorder.
  - apply map_preorder, items_preorder.
Qed.
Lemma product_cmp_eq a b : product_cmp a b = Eq <-> p_token a = p_token b /\ p_exploded a = p_exploded b.
Proof.
  unfold product_cmp. rewrite <- scmp_eq, <- items_cmp_eq. destruct (scmp _ _); intuition; discriminate.
Qed.

Lemma CompareTypes_preorder : preorder CompareTypes.
Proof.
  repeat split.
  - intros a. unfold CompareTypes. destruct (str_eqb a star); [reflexivity|apply scmp_preorder].
  - intros a b. unfold CompareTypes. destruct (str_eqb a star), (str_eqb b star); try reflexivity. apply scmp_preorder.
  - intros a b c. unfold CompareTypes. destruct (str_eqb a star), (str_eqb b star), (str_eqb c star); try easy.
    apply (pre_le_trans _ scmp_preorder).
Qed.
Lemma entry_preorder : preorder entry_cmp.
Proof.
  eapply preorder_ext; [intros a b; unfold entry_cmp; instantiate (1 := fun a b => thenc (scmp (fst a) (fst b))
    (thenc (scmp (fst (snd a)) (fst (snd b))) (scmp (snd (snd a)) (snd (snd b))))); thens|].
  apply (then_preorder (fun a b => scmp (fst a) (fst b))
           (fun a b => thenc (scmp (fst (snd a)) (fst (snd b))) (scmp (snd (snd a)) (snd (snd b))))).
  - apply (map_preorder fst), scmp_preorder.
  - apply (then_preorder (fun a b => scmp (fst (snd a)) (fst (snd b))) (fun a b => scmp (snd (snd a)) (snd (snd b)))).
    + apply (map_preorder (fun a => fst (snd a))), scmp_preorder.
    + apply (map_preorder (fun a => snd (snd a))), scmp_preorder.
Qed.
Lemma entry_cmp_eq a b : entry_cmp a b = Eq -> a = b.
Proof.
  destruct a as [k [n v]], b as [k' [n' v']]. unfold entry_cmp. cbn [fst snd].
  destruct (scmp k k') eqn:E1; try discriminate. destruct (scmp n n') eqn:E2; try discriminate. intros E3.
  apply scmp_eq in E1, E2, E3. congruence.
Qed.
Lemma entries_lexc a : forall b, entries_cmp a b = lexc entry_cmp Lt a b.
Proof. induction a as [|x a IH]; intros [|y b]; cbn; try reflexivity; now rewrite IH. Qed.
Lemma dict_preorder : preorder dict_cmp.
Proof.
  apply (map_preorder (sort by_key) entries_cmp).
  apply (preorder_ext (lexc entry_cmp Lt)); [intros; symmetry; apply entries_lexc|].
  apply lexc_preorder; [apply entry_preorder|discriminate].
Qed.
Lemma dict_cmp_eq a b : dict_cmp a b = Eq -> sort by_key a = sort by_key b.
Proof. unfold dict_cmp. rewrite entries_lexc. apply lexc_eq; [discriminate|apply entry_cmp_eq]. Qed.
Lemma range_preorder : preorder range_cmp.
Proof.
  eapply preorder_ext; [intros a b; unfold range_cmp;
    instantiate (1 := fun a b => thenc (CompareTypes (m_type a) (m_type b)) (thenc (CompareTypes (m_sub a) (m_sub b))
                      (thenc (length (m_params b) ?= length (m_params a))%nat (dict_cmp (m_params a) (m_params b))))); thens|].
  apply (then_preorder (fun a b => CompareTypes (m_type a) (m_type b))
    (fun a b => thenc (CompareTypes (m_sub a) (m_sub b))
                      (thenc (length (m_params b) ?= length (m_params a))%nat (dict_cmp (m_params a) (m_params b))))).
  - apply map_preorder, CompareTypes_preorder.
  - apply (then_preorder (fun a b => CompareTypes (m_sub a) (m_sub b))
      (fun a b => thenc (length (m_params b) ?= length (m_params a))%nat (dict_cmp (m_params a) (m_params b)))).
    + apply map_preorder, CompareTypes_preorder.
    + apply (then_preorder (fun a b => (length (m_params b) ?= length (m_params a))%nat)
         (fun a b => dict_cmp (m_params a) (m_params b))).
      * apply (flip_preorder (fun a b => (length (m_params a) ?= length (m_params b))%nat)).
        apply (map_preorder (fun a => length (m_params a))), nat_preorder.
      * apply map_preorder, dict_preorder.
Qed.
Lemma accept_preorder : preorder accept_cmp.
Proof.
  eapply preorder_ext; [intros a b; unfold accept_cmp;
    instantiate (1 := fun a b => thenc (range_cmp (a_range a) (a_range b)) (a_q b ?= a_q a)); thens|].
  apply (then_preorder (fun a b => range_cmp (a_range a) (a_range b)) (fun a b => a_q b ?= a_q a)).
  - apply map_preorder, range_preorder.
  - apply (flip_preorder (fun a b => a_q a ?= a_q b)). apply map_preorder, Z_preorder.
Qed.
Lemma atoken_cmp_alt a b : atoken_cmp a b =
  thenc (CompareTypes (at_token a) (at_token b)) (at_q b ?= at_q a).
Proof.
  unfold atoken_cmp, CompareTypes. destruct (str_eqb (at_token a) star), (str_eqb (at_token b) star); try reflexivity. now destruct (scmp _ _).
Qed.
Lemma atoken_preorder : preorder atoken_cmp.
Proof.
  apply (preorder_ext (fun a b => thenc (CompareTypes (at_token a) (at_token b)) (at_q b ?= at_q a)));
    [intros; symmetry; apply atoken_cmp_alt|].
  apply (then_preorder (fun a b => CompareTypes (at_token a) (at_token b)) (fun a b => at_q b ?= at_q a)).
  - apply map_preorder, CompareTypes_preorder.
  - apply (flip_preorder (fun a b => at_q a ?= at_q b)). apply map_preorder, Z_preorder.
Qed.
Lemma language_preorder : preorder language_cmp.
Proof.
  eapply preorder_ext; [intros a b; unfold language_cmp;
    instantiate (1 := fun a b => thenc (length (lang_range b) ?= length (lang_range a))%nat (tag_cmp (lang_range a) (lang_range b))); thens|].
  apply (then_preorder (fun a b => (length (lang_range b) ?= length (lang_range a))%nat)
           (fun a b => tag_cmp (lang_range a) (lang_range b))).
  - apply (flip_preorder (fun a b => (length (lang_range a) ?= length (lang_range b))%nat)).
    apply (map_preorder (fun a => length (lang_range a))), nat_preorder.
  - apply map_preorder, tag_preorder.
Qed.
Lemma by_key_preorder : preorder by_key.
Proof. apply (map_preorder fst), scmp_preorder. Qed.

(** ** Sorting *)
Section Sorting.
Context {A : Type} (cmp : A -> A -> comparison).
Lemma insert_perm x l : Permutation (insert cmp x l) (x :: l).
Proof.
  induction l as [|y l IH]; [reflexivity|]. cbn. destruct (cmp y x); [reflexivity| |reflexivity].
  rewrite IH. apply perm_swap.
Qed.
Lemma sort_perm l : Permutation (sort cmp l) l.
Proof. induction l as [|x l IH]; [reflexivity|]. cbn. rewrite insert_perm. now constructor. Qed.
Context (P : preorder cmp).
Definition le_ (a b : A) : Prop := cmp a b <> Gt.
Lemma insert_sorted x l : StronglySorted le_ l -> StronglySorted le_ (insert cmp x l).
Proof.
  induction 1 as [|y l SS IH F]; [repeat constructor|]. cbn. destruct (cmp y x) eqn:E.
  - constructor; [now constructor|]. assert (X : le_ x y) by (unfold le_; now rewrite (pre_opp cmp P y x), E).
    constructor; [exact X|]. eapply Forall_impl; [|exact F]. intros z Z. now apply (pre_le_trans cmp P x y z).
  - constructor; [exact IH|]. rewrite Forall_forall in *. intros z Z.
    rewrite insert_perm in Z. destruct Z as [<-|Z]; [unfold le_; congruence|now apply F].
  - constructor; [now constructor|]. assert (X : le_ x y) by (unfold le_; now rewrite (pre_opp cmp P y x), E).
    constructor; [exact X|]. eapply Forall_impl; [|exact F]. intros z Z. now apply (pre_le_trans cmp P x y z).
Qed.
Lemma sort_sorted l : StronglySorted le_ (sort cmp l).
Proof. induction l as [|x l IH]; [constructor|]. cbn. now apply insert_sorted. Qed.
Lemma sort_id l : StronglySorted le_ l -> sort cmp l = l.
Proof.
  induction 1 as [|y l SS IH F]; [reflexivity|].
  change (sort cmp (y :: l)) with (insert cmp y (sort cmp l)). rewrite IH. destruct l as [|z l]; [reflexivity|].
  cbn. apply Forall_inv in F. unfold le_ in F. rewrite (pre_opp cmp P y z).
  destruct (cmp y z) eqn:E; [reflexivity|reflexivity|now exfalso].
Qed.
Lemma sort_sort l : sort cmp (sort cmp l) = sort cmp l.
Proof. apply sort_id, sort_sorted. Qed.
(** If equal elements are the same the sorted list is unique. *)
Lemma sorted_unique l : (forall a b, In a l -> In b l -> cmp a b = Eq -> a = b) ->
  forall l', Permutation l l' -> StronglySorted le_ l -> StronglySorted le_ l' -> l = l'.
Proof.
  intros U. induction l as [|x l IH]; intros l' PM S1 S2.
  - apply Permutation_nil in PM. now subst.
  - destruct l' as [|y l']; [apply Permutation_sym, Permutation_nil in PM; discriminate|].
    apply StronglySorted_inv in S1 as [S1 F1]. apply StronglySorted_inv in S2 as [S2 F2].
    rewrite Forall_forall in F1, F2.
    assert (Y : In y (x :: l)) by (rewrite PM; now left).
    assert (X : In x (y :: l')) by (rewrite <- PM; now left).
    assert (E : x = y).
    { destruct Y as [Y|Y]; [exact Y|]. destruct X as [X|X]; [now symmetry|].
      apply F1 in Y as Y'. apply F2 in X as X'. unfold le_ in *.
      apply U; [now left|now right|]. rewrite (pre_opp cmp P x y) in X'. destruct (cmp x y); [reflexivity| |]; now exfalso; (apply X' || apply Y'). }
    subst y. f_equal. apply Permutation_cons_inv in PM. apply IH; [|exact PM|exact S1|exact S2].
    intros a b Ia Ib. apply U; now right.
Qed.
Lemma sort_unique l l' : (forall a b, In a l -> In b l -> cmp a b = Eq -> a = b) -> Permutation l l' ->
  sort cmp l = sort cmp l'.
Proof.
  intros U PM. apply sorted_unique; [| |apply sort_sorted|apply sort_sorted].
  - intros a b Ia Ib. rewrite sort_perm in Ia, Ib. now apply U.
  - now rewrite !sort_perm.
Qed.
End Sorting.
