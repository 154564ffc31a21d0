(** Canonical elements and their order: proofs. *)
From Coq Require Import Lia Permutation.
From Verif Require Import Py XmlChars XmlDoc XmlOut.
From Verif Require Import XmlCharsSpec XmlDocSpec XmlOutSpec XmlCharsProofs XmlCharsProofs2 XmlDocProofs XmlOutProofs.
Open Scope Z_scope.
Open Scope list_scope.

(** ** Squeezing twice *)
Lemma squeeze_words l r s : blank s = false -> words IsS (squeeze l r s) = words IsS s.
Proof.
  intros H. unfold squeeze. rewrite words_is.
  assert (G : forall tl : str, tl = [] \/ tl = [32] -> words IsS (spaced (words IsS s) ++ tl) = words IsS s).
  { intros t Ht. apply words_spaced; [reflexivity|exact Ht|apply words_fine]. }
  destruct (l && starts_spaced s), (r && ends_spaced s); cbn [app]; unfold words at 1; cbn [words_loop];
    try change (IsS 32) with true; cbv iota; apply G; auto.
Qed.
Lemma squeeze_starts l r s : blank s = false -> starts_spaced (squeeze l r s) = l && starts_spaced s.
Proof.
  intros H. unfold squeeze. destruct (l && starts_spaced s); [reflexivity|]. rewrite words_is.
  destruct (squeeze_body s H) as (c & x & E & Hc). rewrite E. cbn. now rewrite is_space_IsS.
Qed.
Lemma squeeze_ends l r s : blank s = false -> ends_spaced (squeeze l r s) = r && ends_spaced s.
Proof.
  intros H. pose proof (squeeze_tail s l H) as G. rewrite <- ends_is in G. destruct r; cbn [andb]; [|exact G].
  rewrite squeeze_split. destruct (ends_spaced s) eqn:Es; [|now rewrite app_nil_r].
  unfold ends_spaced. now rewrite rev_app_distr.
Qed.
Lemma squeeze_idem l r s : blank s = false -> squeeze l r (squeeze l r s) = squeeze l r s.
Proof.
  intros H. unfold squeeze at 1. rewrite words_is, squeeze_words, squeeze_starts, squeeze_ends by exact H.
  unfold squeeze. rewrite words_is, !andb_assoc, !andb_diag. reflexivity.
Qed.
Lemma spaced_in l c : In c (spaced l) -> c = 32 \/ exists w, In w l /\ In c w.
Proof.
  induction l as [|w l IH]; [intros []|]. destruct l as [|w' l].
  - cbn [spaced]. intros H. right. exists w. split; [now left|exact H].
  - change (spaced (w :: w' :: l)) with (w ++ 32 :: spaced (w' :: l)). rewrite in_app_iff. intros [H|[H|H]]; [right; exists w; split; [now left|exact H]|left; congruence|].
    destruct (IH H) as [G|(u & Hu & Hc)]; [now left|right; exists u; split; [now right|exact Hc]].
Qed.
Lemma words_in p s : forall cur w c, In w (words_loop p cur s) -> In c w -> In c cur \/ In c s.
Proof.
  induction s as [|x s IH]; intros cur w c Hw Hc; cbn [words_loop] in Hw.
  - destruct cur; [destruct Hw|]. destruct Hw as [<-|[]]. left. now apply in_rev.
  - destruct (p x).
    + destruct cur as [|y cur].
      * destruct (IH _ _ _ Hw Hc) as [[]|G]. right. now right.
      * destruct Hw as [<-|Hw]; [left; now apply in_rev|]. destruct (IH _ _ _ Hw Hc) as [[]|G]. right. now right.
    + destruct (IH _ _ _ Hw Hc) as [[<-|G]|G]; [right; now left|now left|right; now right].
Qed.
Lemma squeeze_in l r s c : In c (squeeze l r s) -> c = 32 \/ In c s.
Proof.
  unfold squeeze. rewrite !in_app_iff. intros [H|[H|H]].
  - left. destruct (l && starts_spaced s); cbn in H; intuition.
  - apply spaced_in in H as [H|(w & Hw & Hc)]; [now left|]. right. destruct (words_in _ _ _ _ _ Hw Hc) as [[]|G]. exact G.
  - left. destruct (r && ends_spaced s); cbn in H; intuition.
Qed.

(** ** Separate children *)
Lemma merged_sep l : separate l -> merged l = l.
Proof.
  induction 1 as [|s Hs|e l H IH|s e l Hs H IH]; [reflexivity|reflexivity| |]; cbn [merged]; now rewrite IH.
Qed.
Lemma sep_cases l : separate l -> (length l <= 1)%nat \/ exists e, In (inr e) l.
Proof. intros []; [left; cbn; lia|left; cbn; lia|right; exists e; now left|right; exists e; right; now left]. Qed.
Lemma canonical_sep l : separate l -> GetCanonicalChildren false l = canonical_list l.
Proof. intros H. apply canonical_children, sep_cases, H. Qed.
Lemma later_text s : later [inl s : node] = if blank s then [] else [inl (squeeze true false s)].
Proof. reflexivity. Qed.
Lemma later_sep l : separate l -> separate (later l).
Proof.
  induction 1 as [|s Hs|e l H IH|s e l Hs H IH].
  - constructor.
  - rewrite later_text. destruct (blank s) eqn:B; constructor. now apply squeeze_nil.
  - rewrite later_elem. now constructor.
  - rewrite later_both. constructor; [|exact IH]. destruct (blank s) eqn:B; [discriminate|now apply squeeze_nil].
Qed.
Lemma space_or s l r : (if blank (if blank s then [32] else squeeze l r s) then [32] else
    squeeze l r (if blank s then [32] else squeeze l r s)) = if blank s then [32] else squeeze l r s.
Proof. destruct (blank s) eqn:B; [reflexivity|]. now rewrite squeeze_not_blank, squeeze_idem. Qed.
Lemma later_idem l : separate l -> later (later l) = later l.
Proof.
  induction 1 as [|s Hs|e l H IH|s e l Hs H IH].
  - reflexivity.
  - rewrite later_text. destruct (blank s) eqn:B; [reflexivity|]. rewrite later_text. now rewrite squeeze_not_blank, squeeze_idem.
  - rewrite later_elem, later_elem. now rewrite IH.
  - rewrite later_both, later_both, IH. now rewrite space_or.
Qed.
Lemma list_text s : canonical_list [inl s : node] = [inl (if blank s then [32] else squeeze false true s)].
Proof. reflexivity. Qed.
Lemma list_elem e (l : list node) : separate l -> canonical_list (inr e :: l) = inr e :: later l.
Proof. intros H. unfold canonical_list. cbn [merged]. rewrite (merged_sep l H). apply later_elem. Qed.
Lemma list_both s e (l : list node) : separate l -> canonical_list (inl s :: inr e :: l) =
  (if blank s then [] else [inl (squeeze false true s)]) ++ inr e :: later l.
Proof.
  intros H. unfold canonical_list. cbn [merged]. rewrite (merged_sep l H). cbv iota. now rewrite later_elem.
Qed.
Lemma list_sep l : separate l -> separate (canonical_list l).
Proof.
  intros H. destruct H as [|s Hs|e l H|s e l Hs H].
  - constructor.
  - rewrite list_text. constructor. destruct (blank s) eqn:B; [discriminate|now apply squeeze_nil].
  - rewrite list_elem by exact H. constructor. now apply later_sep.
  - rewrite list_both by exact H. destruct (blank s) eqn:B; cbn [app]; constructor; try now apply later_sep. now apply squeeze_nil.
Qed.
Lemma list_idem l : separate l -> canonical_list (canonical_list l) = canonical_list l.
Proof.
  intros H. destruct H as [|s Hs|e l H|s e l Hs H].
  - reflexivity.
  - rewrite !list_text. now rewrite space_or.
  - rewrite (list_elem e l H), list_elem by now apply later_sep. now rewrite later_idem.
  - rewrite (list_both s e l H). destruct (blank s) eqn:B; cbn [app].
    + rewrite list_elem by now apply later_sep. now rewrite later_idem.
    + rewrite list_both by now apply later_sep. rewrite squeeze_not_blank, squeeze_idem, later_idem by assumption. reflexivity.
Qed.
Lemma later_in l : separate l -> (forall e, In (inr e) (later l) -> In (inr e) l) /\
  (forall s c, In (inl s) (later l) -> In c s -> c = 32 \/ exists s', In (inl s') l /\ In c s').
Proof.
  induction 1 as [|s Hs|e l H IH|s e l Hs H IH].
  - split; [intros e []|intros s c []].
  - rewrite later_text. destruct (blank s) eqn:B; [split; [intros e []|intros u c []]|]. split.
    + intros e [G|[]]. discriminate.
    + intros u c [G|[]] Hc. injection G as <-. apply squeeze_in in Hc as [Hc|Hc]; [now left|]. right. exists s. split; [now left|exact Hc].
  - rewrite later_elem. destruct IH as [I1 I2]. split.
    + intros x [G|G]; [left; exact G|right; auto].
    + intros u c [G|G] Hc; [discriminate|]. destruct (I2 u c G Hc) as [K|(u' & K1 & K2)]; [now left|right; exists u'; split; [now right|exact K2]].
  - rewrite later_both. destruct IH as [I1 I2]. split.
    + intros x [G|[G|G]]; [discriminate|right; left; exact G|right; right; auto].
    + intros u c [G|[G|G]] Hc; [|discriminate|].
      * injection G as <-. destruct (blank s); [left; now destruct Hc|]. apply squeeze_in in Hc as [Hc|Hc]; [now left|]. right. exists s. split; [now left|exact Hc].
      * destruct (I2 u c G Hc) as [K|(u' & K1 & K2)]; [now left|right; exists u'; split; [right; now right|exact K2]].
Qed.
Lemma list_in l : separate l -> (forall e, In (inr e) (canonical_list l) -> In (inr e) l) /\
  (forall s c, In (inl s) (canonical_list l) -> In c s -> c = 32 \/ exists s', In (inl s') l /\ In c s').
Proof.
  intros H. destruct H as [|s Hs|e l H|s e l Hs H].
  - split; [intros e []|intros s c []].
  - rewrite list_text. split.
    + intros e [G|[]]. discriminate.
    + intros u c [G|[]] Hc. injection G as <-. destruct (blank s); [left; now destruct Hc|].
      apply squeeze_in in Hc as [Hc|Hc]; [now left|]. right. exists s. split; [now left|exact Hc].
  - rewrite list_elem by exact H. destruct (later_in l H) as [I1 I2]. split.
    + intros x [G|G]; [left; exact G|right; auto].
    + intros u c [G|G] Hc; [discriminate|]. destruct (I2 u c G Hc) as [K|(u' & K1 & K2)]; [now left|right; exists u'; split; [now right|exact K2]].
  - rewrite list_both by exact H. destruct (later_in l H) as [I1 I2]. split.
    + intros x. rewrite in_app_iff. intros [G|[G|G]].
      * destruct (blank s); [destruct G|]. destruct G as [G|[]]. discriminate.
      * right; left; exact G.
      * right; right; auto.
    + intros u c. rewrite in_app_iff. intros [G|[G|G]] Hc; [|discriminate|].
      * destruct (blank s); [destruct G|]. destruct G as [G|[]]. injection G as <-.
        apply squeeze_in in Hc as [Hc|Hc]; [now left|]. right. exists s. split; [now left|exact Hc].
      * destruct (I2 u c G Hc) as [K|(u' & K1 & K2)]; [now left|right; exists u'; split; [right; now right|exact K2]].
Qed.
Lemma canon_in p l : separate l -> (forall e, In (inr e) (GetCanonicalChildren p l) -> In (inr e) l) /\
  (forall s c, In (inl s) (GetCanonicalChildren p l) -> In c s -> c = 32 \/ exists s', In (inl s') l /\ In c s').
Proof.
  intros H. destruct p; [|rewrite canonical_sep by exact H; now apply list_in].
  destruct l as [|x l]; [split; [intros e []|intros s c []]|]. unfold GetCanonicalChildren. split; [auto|]. intros s c Hs Hc. right. eauto.
Qed.
Lemma canon_sep p l : separate l -> separate (GetCanonicalChildren p l).
Proof.
  intros H. destruct p; [destruct l; exact H|]. rewrite canonical_sep by exact H. now apply list_sep.
Qed.
Lemma canon_idem p l : separate l -> GetCanonicalChildren p (GetCanonicalChildren p l) = GetCanonicalChildren p l.
Proof.
  intros H. destruct p; [destruct l; reflexivity|]. rewrite (canonical_sep l H), canonical_sep by now apply list_sep.
  now apply list_idem.
Qed.
Lemma sep_map (f : tree -> tree) l : separate l -> separate (map (on_elem f) l).
Proof. induction 1; cbn [map on_elem]; constructor; assumption. Qed.

(** ** Order of strings *)
Lemma cmp_eq a : forall b, cmp_str a b = Eq <-> a = b.
Proof.
  induction a as [|x a IH]; intros [|y b]; cbn; try easy. destruct (Z.compare_spec x y) as [->|H|H].
  - rewrite IH. split; congruence.
  - split; [discriminate|]. intros [= -> _]. lia.
  - split; [discriminate|]. intros [= -> _]. lia.
Qed.
Lemma cmp_refl a : cmp_str a a = Eq. Proof. now apply cmp_eq. Qed.
Lemma cmp_opp a : forall b, cmp_str b a = CompOpp (cmp_str a b).
Proof.
  induction a as [|x a IH]; intros [|y b]; cbn; try reflexivity. rewrite (Z.compare_antisym x y). destruct (x ?= y); cbn; auto.
Qed.
Lemma cmp_lt_trans a : forall b c, cmp_str a b = Lt -> cmp_str b c = Lt -> cmp_str a c = Lt.
Proof.
  induction a as [|x a IH]; intros [|y b] [|z c]; cbn; try easy.
  destruct (Z.compare_spec x y) as [->|H|H]; destruct (Z.compare_spec y z) as [->|G|G]; try easy.
  - apply IH.
  - intros _ _. destruct (Z.compare_spec x z); auto; lia.
  - intros _ _. destruct (Z.compare_spec x z); auto; lia.
Qed.
Lemma cmp_before a : forall b, cmp_str a b = Lt <-> text_before a b.
Proof.
  induction a as [|x a IH]; intros [|y b]; cbn.
  - split; [discriminate|]. intros H. inversion H.
  - split; [constructor|reflexivity].
  - split; [discriminate|]. intros H. inversion H.
  - destruct (Z.compare_spec x y) as [->|H|H].
    + rewrite IH. split; [now constructor|]. intros G. inversion G; subst; [lia|assumption].
    + split; [now constructor|reflexivity].
    + split; [discriminate|]. intros G. inversion G; subst; lia.
Qed.

(** ** Attributes in order *)
Lemma insert_perm x l : Permutation (insert_attr x l) (x :: l).
Proof.
  induction l as [|y l IH]; [reflexivity|]. cbn [insert_attr]. destruct (cmp_str (fst x) (fst y)); try reflexivity.
  rewrite IH. apply perm_swap.
Qed.
Lemma sort_perm l : Permutation (SortNames l) l.
Proof. induction l as [|x l IH]; [reflexivity|]. cbn. fold (SortNames l). rewrite insert_perm. now constructor. Qed.
Lemma insert_asc x l : ascending l -> ~ In (fst x) (map fst l) -> ascending (insert_attr x l).
Proof.
  destruct x as [k v]. induction 1 as [|k' v' l H HA IH]; intros Hn; cbn [insert_attr fst].
  - constructor; [intros ? ? []|constructor].
  - cbn [map fst In] in Hn. destruct (cmp_str k k') eqn:E.
    + apply cmp_eq in E. subst. destruct Hn. now left.
    + constructor; [|now constructor]. intros k2 v2 [G|G].
      * injection G as <- <-. now apply cmp_before.
      * apply cmp_before. apply cmp_lt_trans with k'; [exact E|]. apply cmp_before. eauto.
    + constructor; [|apply IH; tauto]. intros k2 v2 G. apply (Permutation_in _ (insert_perm _ _)) in G as [G|G]; [|eauto].
      injection G as <- <-. apply cmp_before. now rewrite cmp_opp, E.
Qed.
Lemma sort_asc l : dictionary l -> ascending (SortNames l).
Proof.
  unfold dictionary. induction l as [|x l IH]; [constructor|]. cbn [map]. intros H. apply NoDup_cons_iff in H as [Hx Hl].
  cbn. fold (SortNames l). apply insert_asc; [auto|]. intros G. apply Hx.
  eapply Permutation_in; [|exact G]. apply Permutation_map, sort_perm.
Qed.
Lemma sort_sorted l : ascending l -> SortNames l = l.
Proof.
  induction 1 as [|k v l H HA IH]; [reflexivity|]. cbn. fold (SortNames l). rewrite IH. destruct l as [|[k' v'] l]; [reflexivity|].
  cbn [insert_attr fst]. assert (G : cmp_str k k' = Lt) by (apply cmp_before; eapply H; now left). now rewrite G.
Qed.
Lemma sort_idem l : dictionary l -> SortNames (SortNames l) = SortNames l.
Proof. intros H. now apply sort_sorted, sort_asc. Qed.
Lemma sort_dict l : dictionary l -> dictionary (SortNames l).
Proof. unfold dictionary. intros H. eapply Permutation_NoDup; [|exact H]. apply Permutation_map. symmetry. apply sort_perm. Qed.
Lemma before_irr k : ~ text_before k k.
Proof. intros H. apply cmp_before in H. rewrite cmp_refl in H. discriminate. Qed.
Lemma asc_unique l : ascending l -> forall m, ascending m -> (forall x, In x l <-> In x m) -> l = m.
Proof.
  induction 1 as [|k v l H HA IH]; intros m Hm E.
  - destruct m as [|x m]; [reflexivity|]. destruct (proj2 (E x)). now left.
  - destruct Hm as [|k' v' m H' HA'].
    + destruct (proj1 (E (k, v))). now left.
    + assert (Ek : (k, v) = (k', v')).
      { destruct (proj1 (E (k, v)) (or_introl eq_refl)) as [G|G]; [congruence|].
        destruct (proj2 (E (k', v')) (or_introl eq_refl)) as [G'|G']; [congruence|].
        apply H' in G. apply H in G'. apply cmp_before in G, G'. rewrite cmp_opp, G' in G. discriminate. }
      injection Ek as <- <-. f_equal. apply IH; [exact HA'|]. intros [a b]. split; intros G.
      * destruct (proj1 (E (a, b)) (or_intror G)) as [K|K]; [|exact K]. injection K as <- <-. destruct (before_irr k). eauto.
      * destruct (proj2 (E (a, b)) (or_intror G)) as [K|K]; [|exact K]. injection K as <- <-. destruct (before_irr k). eauto.
Qed.
Lemma lookup_dict k (l : list (str * str)) v : dictionary l -> In (k, v) l -> lookup k l = Some v.
Proof.
  unfold dictionary. induction l as [|[a b] l IH]; cbn [map fst]; [intros _ []|]. intros H. apply NoDup_cons_iff in H as [Ha Hl].
  intros [G|G]; cbn [lookup].
  - injection G as -> ->. now rewrite str_eqb_refl.
  - rewrite str_eqb_neq; [auto|]. intros ->. apply Ha. apply in_map_iff. exists (a, v). auto.
Qed.
Lemma lookup_perm k l m : dictionary l -> Permutation l m -> lookup k l = lookup k m.
Proof.
  intros H P. destruct (lookup k m) as [v|] eqn:E.
  - apply lookup_dict; [exact H|]. apply lookup_In in E. eapply Permutation_in; [symmetry; exact P|exact E].
  - apply lookup_none. apply lookup_none in E. intros G. apply E. eapply Permutation_in; [|exact G]. now apply Permutation_map.
Qed.
Lemma preserves_sort p l : dictionary l -> preserves p (SortNames l) = preserves p l.
Proof. intros H. unfold preserves. rewrite (lookup_perm _ (SortNames l) l (sort_dict l H) (sort_perm l)). reflexivity. Qed.

(** ** Canonical elements *)
Lemma tree_induct (P : tree -> Prop) : (forall n a ch, (forall e, In (inr e) ch -> P e) -> P (Elem n a ch)) -> forall t, P t.
Proof.
  intros H. fix F 1. intros [n a ch]. apply H. revert ch. fix G 1. intros [|[s|x] ch] e.
  - intros [].
  - intros [K|K]; [discriminate|exact (G ch e K)].
  - intros [K|K]; [|exact (G ch e K)]. injection K as K. rewrite <- K. apply F.
Qed.
Fixpoint canon (outer : bool) (t : tree) : tree :=
  match t with
  | Elem n a ch => Elem n (SortNames a)
      (GetCanonicalChildren (preserves outer a)
         (map (fun c => match c with inl s => inl s | inr e => inr (canon (preserves outer a) e) end) ch))
  end.
Lemma canon_eq p n a ch : canon p (Elem n a ch) =
  Elem n (SortNames a) (map (on_elem (canon (preserves p a))) (GetCanonicalChildren (preserves p a) ch)).
Proof. cbn [canon]. f_equal. exact (canonical_map (canon (preserves p a)) _ ch). Qed.

Lemma every_in okn ok okt n a ch : every okn ok okt (Elem n a ch) -> okn n /\ dictionary a /\ (forall k v, In (k, v) a -> ok k v) /\
  separate ch /\ (forall s, In (inl s) ch -> okt s) /\ (forall e, In (inr e) ch -> every okn ok okt e).
Proof. intros H. inversion H; subst. auto 10. Qed.
Lemma every_weaken (okn okn' : str -> Prop) (ok ok' : str -> str -> Prop) (okt okt' : str -> Prop) :
  (forall n, okn n -> okn' n) -> (forall k v, ok k v -> ok' k v) -> (forall s, okt s -> okt' s) ->
  forall t, every okn ok okt t -> every okn' ok' okt' t.
Proof.
  intros H1 H2 H3. induction t as [n a ch IH] using tree_induct. intros H.
  apply every_in in H as (Hn & Hd & Ha & Hs & Ht & He). constructor; auto.
Qed.
Lemma every_tidy okn ok okt t : every okn ok okt t -> tidy t.
Proof. apply every_weaken; auto. Qed.

Lemma map_on_comp {A B C} (f : A -> B) (g : B -> C) l : map (on_elem g) (map (on_elem f) l) = map (on_elem (fun x => g (f x))) l.
Proof. rewrite map_map. apply map_ext. now intros [s|e]. Qed.
Lemma map_on_ext {A B} (f g : A -> B) l : (forall e, In (inr e) l -> f e = g e) -> map (on_elem f) l = map (on_elem g) l.
Proof. intros H. apply map_ext_in. intros [s|e] Hi; cbn; [reflexivity|]. now rewrite H. Qed.
Lemma canon_canon t : tidy t -> forall p, canon p (canon p t) = canon p t.
Proof.
  induction t as [n a ch IH] using tree_induct. intros H p. apply every_in in H as (_ & Hd & _ & Hs & _ & He).
  rewrite !canon_eq. rewrite preserves_sort, sort_idem by exact Hd. f_equal. set (q := preserves p a).
  rewrite canonical_map, canon_idem by exact Hs. rewrite map_on_comp. apply map_on_ext.
  intros e G. apply IH; [|apply He]; now apply (canon_in q ch Hs).
Qed.
Lemma preserves_keeps p a q : dictionary a -> keeps p a q <-> q = preserves p a.
Proof.
  intros Hd. unfold keeps, preserves, xml_space_attr. split.
  - intros [(v & Hv & Hq)|(Hn & ->)].
    + rewrite (lookup_dict _ _ v Hd Hv). apply eq_true_iff_eq. rewrite Hq. symmetry. apply str_eqb_eq.
    + apply lookup_none in Hn. now rewrite Hn.
  - intros ->. destruct (lookup (lit "xml:space") a) as [v|] eqn:E.
    + left. exists v. split; [now apply lookup_In|apply str_eqb_eq].
    + right. split; [now apply lookup_none|reflexivity].
Qed.
Lemma canonical_nodes_map p (f : tree -> tree) l : (forall e, In (inr e) l -> canonical p e (f e)) -> canonical_nodes p l (map (on_elem f) l).
Proof. induction l as [|[s|e] l IH]; intros H; cbn; constructor; try (apply H; now left); apply IH; intros x Hx; apply H; now right. Qed.
Lemma canon_chosen q ch : separate ch -> GetCanonicalChildren q ch = if q then ch else canonical_list ch.
Proof. intros H. destruct q; [now destruct ch|now apply canonical_sep]. Qed.
(** The function computes the relation of the specification. *)
Lemma canon_canonical t : tidy t -> forall p, canonical p t (canon p t).
Proof.
  induction t as [n a ch IH] using tree_induct. intros H p. apply every_in in H as (_ & Hd & _ & Hs & _ & He).
  rewrite canon_eq. set (q := preserves p a). apply ca_elem with q.
  - now apply preserves_keeps.
  - now apply sort_asc.
  - intros x. split; apply Permutation_in; [|symmetry]; apply sort_perm.
  - rewrite <- canon_chosen by exact Hs. apply canonical_nodes_map. intros e G. apply IH; [|apply He]; now apply (canon_in q ch Hs).
Qed.
Lemma canonical_canon t : tidy t -> forall p u, canonical p t u -> u = canon p t.
Proof.
  induction t as [n a ch IH] using tree_induct. intros H p u Hu. apply every_in in H as (_ & Hd & _ & Hs & _ & He).
  inversion Hu as [? ? ? a' ? ch' q Hq Ha' Hsame Hch]; subst. apply preserves_keeps in Hq; [|exact Hd].
  rewrite canon_eq. rewrite <- Hq. f_equal.
  - apply asc_unique; [exact Ha'|now apply sort_asc|]. intros x. rewrite Hsame. split; apply Permutation_in; [symmetry|]; apply sort_perm.
  - rewrite <- canon_chosen in Hch by exact Hs.
    assert (G : forall e, In (inr e) (GetCanonicalChildren q ch) -> forall u, canonical q e u -> u = canon q e).
    { intros e G v Hv. apply IH; [| |exact Hv]; [|apply He]; now apply (canon_in q ch Hs). }
    clear -G Hch. remember (GetCanonicalChildren q ch) as l eqn:E. clear E. induction Hch as [p|p s l l' H I|p e e' l l' K H I].
    + reflexivity.
    + cbn. f_equal. apply I. intros e K. apply G. now right.
    + cbn. f_equal; [f_equal; apply G; [now left|exact K]|]. apply I. intros x K'. apply G. now right.
Qed.

(** ** Comparison *)
Fixpoint tree_cmp (t t' : tree) : comparison :=
  match t, t' with
  | Elem n a ch, Elem n' a' ch' =>
      match cmp_str n n' with
      | Eq => match cmp_attrs a a' with
              | Eq => cmp_children (map (fun c => match c with inl s => inl s | inr e => inr (tree_cmp e) end) ch) ch'
              | c => c end
      | c => c end
  end.
Lemma Compare_canon t : forall p t' p', Compare p t p' t' = tree_cmp (canon p t) (canon p' t').
Proof.
  induction t as [n a ch IH] using tree_induct. intros p [n' a' ch'] p'. rewrite !canon_eq. cbn [Compare tree_cmp].
  destruct (cmp_str n n'); try reflexivity. destruct (cmp_attrs (SortNames a) (SortNames a')); try reflexivity.
  cbv zeta. set (q := preserves p a). set (q' := preserves p' a').
  pose proof (canonical_map (fun e e' => Compare q e q' e') q ch) as M. unfold on_elem at 1 in M. rewrite M.
  pose proof (canonical_map (fun e => e) q ch) as N.
  assert (G : forall e, In (inr e) (GetCanonicalChildren q ch) -> In (inr e) ch).
  { clear. destruct ch as [|c ch]; [auto|]. unfold GetCanonicalChildren. destruct q; [auto|].
    assert (L : forall (l : list node) data m e, In (inr e) (canonical_loop data m l) -> In (inr e) l).
    { induction l as [|[s|x] l I]; intros data m e; cbn [canonical_loop].
      - destruct data; [auto|]. cbv zeta. repeat match goal with |- context [if ?b then _ else _] => destruct b end; cbn; intuition discriminate.
      - intros K. right. eauto.
      - rewrite in_app_iff. intros [K|[K|K]]; [|left; exact K|right; eauto]. exfalso. revert K. destruct data; [auto|]. cbv zeta.
        match goal with |- context [if ?b then _ else _] => destruct b end; cbn; intuition discriminate. }
    destruct ch as [|d ch]; destruct c as [s|x]; intros e.
    - intros [K|[]]. discriminate.
    - auto.
    - intros K. right. apply (L (d :: ch) [s] true e K).
    - intros [K|K]; [left; exact K|]. right. apply (L (d :: ch) [] false e K). }
  clear M N. revert G. generalize (GetCanonicalChildren q ch) as l. generalize (GetCanonicalChildren q' ch') as l'.
  intros l' l. revert l'. induction l as [|[s|e] l I]; intros [|[u|e'] l'] G; cbn [map on_elem cmp_children]; try reflexivity.
  - destruct (cmp_str s u); try reflexivity. apply I. intros x K. apply G. now right.
  - rewrite (IH e) by (apply G; now left). destruct (tree_cmp _ _); try reflexivity. apply I. intros x K. apply G. now right.
Qed.

Lemma attrs_eq a : forall b, cmp_attrs a b = Eq <-> a = b.
Proof.
  induction a as [|[x v] a IH]; intros [|[y w] b]; cbn; try easy.
  destruct (cmp_str x y) eqn:E1; [apply cmp_eq in E1; subst|split; [discriminate|intros [= -> -> ->]; now rewrite cmp_refl in E1]..].
  destruct (cmp_str v w) eqn:E2; [apply cmp_eq in E2; subst|split; [discriminate|intros [= -> ->]; now rewrite cmp_refl in E2]..].
  rewrite IH. split; congruence.
Qed.
Lemma attrs_opp a : forall b, cmp_attrs b a = CompOpp (cmp_attrs a b).
Proof.
  induction a as [|[x v] a IH]; intros [|[y w] b]; cbn; try reflexivity. rewrite (cmp_opp x y). destruct (cmp_str x y); cbn; try reflexivity.
  rewrite (cmp_opp v w). destruct (cmp_str v w); cbn; auto.
Qed.
Lemma attrs_trans a : forall b c, cmp_attrs a b = Lt -> cmp_attrs b c = Lt -> cmp_attrs a c = Lt.
Proof.
  induction a as [|[x v] a IH]; intros [|[y w] b] [|[z u] c]; cbn; try easy.
  destruct (cmp_str x y) eqn:E1; try easy.
  - apply cmp_eq in E1 as ->. destruct (cmp_str y z) eqn:E2; try easy. apply cmp_eq in E2 as ->.
    destruct (cmp_str v w) eqn:E3; try easy.
    + apply cmp_eq in E3 as ->. destruct (cmp_str w u) eqn:E4; try easy. apply IH.
    + destruct (cmp_str w u) eqn:E4; try easy.
      * apply cmp_eq in E4 as ->. now rewrite E3.
      * now rewrite (cmp_lt_trans _ _ _ E3 E4).
  - destruct (cmp_str y z) eqn:E2; try easy.
    + apply cmp_eq in E2 as ->. now rewrite E1.
    + now rewrite (cmp_lt_trans _ _ _ E1 E2).
Qed.
Lemma tree_cmp_eq t : forall t', tree_cmp t t' = Eq <-> t = t'.
Proof.
  induction t as [n a ch IH] using tree_induct. intros [n' a' ch']. cbn [tree_cmp].
  destruct (cmp_str n n') eqn:E1; [apply cmp_eq in E1; subst|split; [discriminate|intros [= -> -> ->]; now rewrite cmp_refl in E1]..].
  destruct (cmp_attrs a a') eqn:E2; [apply attrs_eq in E2; subst|split; [discriminate|intros [= -> ->]; now rewrite (proj2 (attrs_eq a' a') eq_refl) in E2]..].
  transitivity (ch = ch'); [|split; congruence].
  revert ch'. induction ch as [|[s|e] ch I]; intros [|[u|e'] ch']; cbn [map cmp_children]; try easy.
  - destruct (cmp_str s u) eqn:E3; [apply cmp_eq in E3; subst|split; [discriminate|intros [= -> ->]; now rewrite cmp_refl in E3]..].
    rewrite I; [split; congruence|]. intros x K. apply IH. now right.
  - pose proof (IH e (or_introl eq_refl) e') as G. destruct (tree_cmp e e').
    + destruct G as [G _]. rewrite (G eq_refl). rewrite I; [split; congruence|]. intros x K. apply IH. now right.
    + split; [discriminate|]. intros [= -> ->]. now destruct G as [_ G]; discriminate G.
    + split; [discriminate|]. intros [= -> ->]. now destruct G as [_ G]; discriminate G.
Qed.
Lemma tree_cmp_opp t : forall t', tree_cmp t' t = CompOpp (tree_cmp t t').
Proof.
  induction t as [n a ch IH] using tree_induct. intros [n' a' ch']. cbn [tree_cmp].
  rewrite (cmp_opp n n'). destruct (cmp_str n n'); cbn [CompOpp]; try reflexivity.
  rewrite (attrs_opp a a'). destruct (cmp_attrs a a'); cbn [CompOpp]; try reflexivity.
  revert ch'. induction ch as [|[s|e] ch I]; intros [|[u|e'] ch']; cbn [map cmp_children]; try reflexivity.
  - rewrite (cmp_opp s u). destruct (cmp_str s u); cbn [CompOpp]; try reflexivity. apply I. intros x K. apply IH. now right.
  - rewrite (IH e (or_introl eq_refl) e'). destruct (tree_cmp e e'); cbn [CompOpp]; try reflexivity. apply I. intros x K. apply IH. now right.
Qed.
Lemma tree_cmp_trans t : forall u v, tree_cmp t u = Lt -> tree_cmp u v = Lt -> tree_cmp t v = Lt.
Proof.
  induction t as [n a ch IH] using tree_induct. intros [n' a' ch'] [n2 a2 ch2]. cbn [tree_cmp].
  destruct (cmp_str n n') eqn:E1; try easy.
  2: { destruct (cmp_str n' n2) eqn:E2; try easy; [apply cmp_eq in E2 as ->; now rewrite E1|now rewrite (cmp_lt_trans _ _ _ E1 E2)]. }
  apply cmp_eq in E1 as ->. destruct (cmp_str n' n2) eqn:E2; try easy. clear E2.
  destruct (cmp_attrs a a') eqn:E1; try easy.
  2: { destruct (cmp_attrs a' a2) eqn:E2; try easy; [apply attrs_eq in E2 as ->; now rewrite E1|now rewrite (attrs_trans _ _ _ E1 E2)]. }
  apply attrs_eq in E1 as ->. destruct (cmp_attrs a' a2) eqn:E2; try easy. clear E2.
  revert ch' ch2. induction ch as [|[s|e] ch I]; intros [|[u|e'] ch'] [|[w|e2] ch2]; cbn [map cmp_children]; try easy.
  - destruct (cmp_str s u) eqn:E1; try easy.
    2: { destruct (cmp_str u w) eqn:E2; try easy; [apply cmp_eq in E2 as ->; now rewrite E1|now rewrite (cmp_lt_trans _ _ _ E1 E2)]. }
    apply cmp_eq in E1 as ->. destruct (cmp_str u w) eqn:E2; try easy. apply I. intros x K. apply IH. now right.
  - destruct (tree_cmp e e') eqn:E1; try easy.
    2: { destruct (tree_cmp e' e2) eqn:E2; try easy; [apply tree_cmp_eq in E2 as ->; now rewrite E1|].
         now rewrite (IH e (or_introl eq_refl) _ _ E1 E2). }
    apply tree_cmp_eq in E1 as ->. destruct (tree_cmp e' e2) eqn:E2; try easy. apply I. intros x K. apply IH. now right.
Qed.
Lemma attrs_lt a : forall b, cmp_attrs a b = Lt <-> attrs_before a b.
Proof.
  induction a as [|[x v] a IH]; intros [|[y w] b]; cbn [cmp_attrs].
  - split; [discriminate|]. intros H. inversion H.
  - split; [constructor|reflexivity].
  - split; [discriminate|]. intros H. inversion H.
  - destruct (cmp_str x y) eqn:E1.
    + apply cmp_eq in E1 as ->. destruct (cmp_str v w) eqn:E2.
      * apply cmp_eq in E2 as ->. rewrite IH. split; [now constructor|].
        intros H. inversion H; subst; try assumption; exfalso; eapply before_irr; eassumption.
      * split; [|reflexivity]. intros _. apply ab_value. now apply cmp_before.
      * split; [discriminate|]. intros H. inversion H; subst; [exfalso; eapply before_irr; eassumption| |now rewrite cmp_refl in E2].
        match goal with K : text_before v w |- _ => apply cmp_before in K; congruence end.
    + split; [|reflexivity]. intros _. apply ab_name. now apply cmp_before.
    + split; [discriminate|]. intros H. inversion H; subst; [|now rewrite cmp_refl in E1..].
      match goal with K : text_before x y |- _ => apply cmp_before in K; congruence end.
Qed.
Lemma before_lt t : forall u, tree_cmp t u = Lt <-> before t u.
Proof.
  induction t as [n a ch IH] using tree_induct. intros [n' a' ch']. cbn [tree_cmp].
  destruct (cmp_str n n') eqn:E1.
  2: { split; [|reflexivity]. intros _. apply be_name. now apply cmp_before. }
  2: { split; [discriminate|]. intros H. inversion H; subst; [|now rewrite cmp_refl in E1..].
       match goal with K : text_before n n' |- _ => apply cmp_before in K; congruence end. }
  apply cmp_eq in E1 as ->. destruct (cmp_attrs a a') eqn:E1.
  2: { split; [|reflexivity]. intros _. apply be_attrs. now apply attrs_lt. }
  2: { split; [discriminate|]. intros H. inversion H; subst; [exfalso; eapply before_irr; eassumption| |now rewrite (proj2 (attrs_eq a' a') eq_refl) in E1].
       match goal with K : attrs_before a a' |- _ => apply attrs_lt in K; congruence end. }
  apply attrs_eq in E1 as ->. transitivity (nodes_before ch ch').
  2: { split; [apply be_children|]. intros H. inversion H; subst; [exfalso; eapply before_irr; eassumption| |assumption].
       match goal with K : attrs_before a' a' |- _ => apply attrs_lt in K; rewrite (proj2 (attrs_eq a' a') eq_refl) in K; discriminate end. }
  revert ch'. induction ch as [|[s|e] ch I]; intros [|[u|e'] ch']; cbn [map cmp_children].
  - split; [discriminate|]. intros H. inversion H.
  - split; [constructor|reflexivity].
  - split; [constructor|reflexivity].
  - split; [discriminate|]. intros H. inversion H.
  - destruct (cmp_str s u) eqn:E1.
    + apply cmp_eq in E1 as ->. rewrite I by (intros x K; apply IH; now right). split; [now constructor|].
      intros H. inversion H; subst; try assumption. exfalso; eapply before_irr; eassumption.
    + split; [|reflexivity]. intros _. apply nb_text. now apply cmp_before.
    + split; [discriminate|]. intros H. inversion H; subst; [|now rewrite cmp_refl in E1].
      match goal with K : text_before s u |- _ => apply cmp_before in K; congruence end.
  - split; [discriminate|]. intros H. inversion H.
  - split; [discriminate|]. intros H. inversion H.
  - split; [constructor|reflexivity].
  - pose proof (IH e (or_introl eq_refl) e') as G. destruct (tree_cmp e e') eqn:E1.
    + apply tree_cmp_eq in E1 as ->. rewrite I by (intros x K; apply IH; now right). split; [now constructor|].
      intros H. inversion H; subst; try assumption.
      match goal with K : before e' e' |- _ => apply G in K; discriminate end.
    + split; [|reflexivity]. intros _. apply nb_elem. now apply G.
    + split; [discriminate|]. intros H. inversion H; subst.
      * match goal with K : before e e' |- _ => apply G in K; discriminate end.
      * rewrite (proj2 (tree_cmp_eq e' e') eq_refl) in E1. discriminate.
Qed.
