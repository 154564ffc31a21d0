(** Writing names: proofs. *)
From Coq Require Import Lia Permutation.
From Verif Require Import Py XmlChars XmlDoc XmlOut XmlNs.
From Verif Require Import XmlCharsSpec XmlDocSpec XmlOutSpec XmlNsSpec XmlCharsProofs XmlOutProofs XmlOutProofs2 XmlNsProofs.
Open Scope Z_scope.
Open Scope list_scope.

Lemma nelem_induct (P : nelem -> Prop) :
  (forall ns n a m ch, (forall e, In (inr e) ch -> P e) -> P (NElem ns n a m ch)) -> forall t, P t.
Proof.
  intros H. fix IH 1. intros [ns n a m ch]. apply H. induction ch as [|[s|e] ch IHch]; intros x K.
  - destruct K.
  - destruct K as [K|K]; [discriminate|]. now apply IHch.
  - destruct K as [K|K]; [injection K as <-; apply IH|]. now apply IHch.
Qed.

(** ** Names with a prefix *)
Definition colon : str := [58].
Lemma qname_eq p n : p <> [] -> qname p n = p ++ colon ++ n.
Proof. destruct p; [congruence|reflexivity]. Qed.
Lemma colon_split (a b c d : str) : ~ In 58 a -> ~ In 58 c -> a ++ colon ++ b = c ++ colon ++ d -> a = c /\ b = d.
Proof.
  revert c. induction a as [|x a IH]; intros [|y c] Ha Hc E; cbn in E.
  - injection E as E. auto.
  - injection E as E _. destruct Hc. left. congruence.
  - injection E as E _. destruct Ha. left. congruence.
  - injection E as <- E. destruct (IH c) as [-> ->]; auto; intros K; [apply Ha|apply Hc]; now right.
Qed.
Lemma xml_ncname : bmp_ncname (lit "xml").
Proof.
  split; [split|].
  - exists 120, (lit "ml"). split; [reflexivity|]. change (lit "ml") with [109; 108]. unfold name_start_char. split; [lia|].
    repeat constructor; unfold name_start_char; lia.
  - change (Forall bmp [120; 109; 108]). repeat constructor; unfold bmp; lia.
  - change (~ In 58 [120; 109; 108]). cbn. lia.
Qed.
Lemma prefix_colon p : prefix_ok p -> ~ In 58 p.
Proof. intros [->|[[_ H] _]]; [intros []|exact H]. Qed.
Lemma bmp_nc n : bmp_ncname n -> ncname n.
Proof. intros [[H _] H']. split; assumption. Qed.
Lemma ncname_nil n : ncname n -> n <> [].
Proof. intros [(c & r & -> & _) _]. discriminate. Qed.
Lemma qname_bmp p n : (p = [] \/ bmp_ncname p) -> bmp_ncname n -> bmp_name (qname p n).
Proof.
  intros [->|[[(c & r & -> & Hc & Hr) Hb] _]] [[Hn Hb'] _]; [split; assumption|]. rewrite qname_eq by discriminate. split.
  - exists c, (r ++ colon ++ n). split; [reflexivity|]. split; [exact Hc|]. rewrite !Forall_app. split; [exact Hr|]. split.
    + constructor; [left; unfold name_start_char; lia|constructor].
    + destruct Hn as (d & s & -> & Hd & Hs). constructor; [now left|exact Hs].
  - rewrite !Forall_app. split; [exact Hb|]. split; [|exact Hb']. constructor; [unfold bmp; lia|constructor].
Qed.
Lemma qname_inj p n p' n' : ~ In 58 p -> ~ In 58 n -> ~ In 58 p' -> ~ In 58 n' -> qname p n = qname p' n' -> p = p' /\ n = n'.
Proof.
  intros Hp Hn Hp' Hn'. destruct p as [|x p], p' as [|x' p'].
  - auto.
  - rewrite (qname_eq (x' :: p')) by discriminate. cbn [qname]. intros ->. destruct Hn. apply in_app_iff. right. now left.
  - rewrite (qname_eq (x :: p)) by discriminate. cbn [qname]. intros <-. destruct Hn'. apply in_app_iff. right. now left.
  - rewrite !qname_eq by discriminate. intros E. now apply colon_split in E.
Qed.

(** ** Declarations *)
Lemma declaration_eq k p : declaration k p <-> k = declaration_name p.
Proof.
  unfold declaration, declaration_name. destruct p as [|x p]; split.
  - now intros [[-> _]|[_ H]].
  - intros ->. now left.
  - intros [[_ H]|[-> _]]; [discriminate|reflexivity].
  - intros ->. right. split; [reflexivity|discriminate].
Qed.
Lemma declaration_inj p p' : declaration_name p = declaration_name p' -> p = p'.
Proof.
  destruct p as [|x p], p' as [|x' p']; cbn [declaration_name]; try reflexivity; try discriminate.
  intros E. apply app_inv_head in E. exact E.
Qed.
Lemma declaration_qname p k p' : ~ In 58 p -> ~ In 58 k -> p <> lit "xmlns" -> (p = [] -> k <> lit "xmlns") -> qname p k <> declaration_name p'.
Proof.
  intros Hp Hk Hx Hd E. destruct p' as [|y p'].
  - cbn [declaration_name] in E. destruct p as [|x p]; [now apply Hd|]. rewrite qname_eq in E by discriminate.
    assert (K : In 58 (lit "xmlns")) by (rewrite <- E; apply in_app_iff; right; now left). revert K. vm_compute. intuition discriminate.
  - assert (E' : qname p k = lit "xmlns" ++ colon ++ y :: p') by (rewrite E; reflexivity). clear E. destruct p as [|x p].
    + cbn [qname] in E'. subst k. apply Hk. apply in_app_iff. right. now left.
    + rewrite qname_eq in E' by discriminate. apply colon_split in E' as [E' _]; [congruence|exact Hp|]. vm_compute. intuition discriminate.
Qed.

(** ** The prefix of an element *)
Definition element_named (c : context) (ns : option str) (p : str) : Prop :=
  match element_ns ns with
  | None => p = []
  | Some u => (u = xml_uri /\ p = lit "xml") \/ (u <> xml_uri /\ lookup p (scope_of c) = Some u)
  end.
Lemma element_prefix_sound m up ns m1 p : all_ok (m :: up) -> (forall u, element_ns ns = Some u -> namespace u) ->
  element_prefix m up ns = Ok (m1, p) -> all_ok (m1 :: up) /\ element_named (m1 :: up) ns p /\
    (m1 = m \/ exists u, element_ns ns = Some u /\ m1 = with_prefix m [] u /\ lookup [] (prefixToNS m) = None).
Proof.
  intros H Hu. unfold element_prefix, element_named. destruct ns as [[|x u]|]; cbn [element_ns] in *; try (intros [= <- <-]; auto).
  specialize (Hu _ eq_refl). destruct (GetPrefix (m :: up) (Some (x :: u))) as [p'|] eqn:E.
  - intros [= <- <-]. split; [exact H|]. split; [|now left]. now apply GetPrefix_sound.
  - rewrite MakePrefix_given. unfold has_prefix. destruct (lookup [] (prefixToNS m)) as [v|] eqn:F; [discriminate|]. intros [= <- <-].
    assert (Hx : x :: u <> xml_uri).
    { intros Ex. rewrite Ex in E. unfold GetPrefix in E. change XML_NAMESPACE with xml_uri in E. rewrite str_eqb_refl in E. discriminate. }
    apply Forall_cons_iff in H as [Hm H]. split; [constructor; [apply with_prefix_ok; auto; now left|exact H]|]. split.
    + right. split; [exact Hx|]. rewrite scope_with. reflexivity.
    + right. exists (x :: u). auto.
Qed.
Lemma element_prefix_total m up ns : lookup [] (prefixToNS m) = None -> exists m1 p, element_prefix m up ns = Ok (m1, p).
Proof.
  intros H. unfold element_prefix. destruct ns as [[|x u]|]; eauto. destruct (GetPrefix _ _); eauto. rewrite MakePrefix_given.
  unfold has_prefix. rewrite H. eauto.
Qed.

(** ** The prefixes of attributes *)
Definition attribute_named (c : context) (ns : option str) (p : str) : Prop :=
  match attribute_ns ns with
  | None => p = []
  | Some u => (u = xml_uri /\ p = lit "xml") \/ (u <> xml_uri /\ p <> [] /\ lookup p (scope_of c) = Some u)
  end.
Definition written (c : context) (x : (option str * str) * str) (y : str * str) : Prop :=
  snd x = snd y /\ exists p, fst y = qname p (snd (fst x)) /\ attribute_named c (fst (fst x)) p.
Lemma attribute_names_ok up l : forall m, all_ok (m :: up) ->
  (forall ns k v u, In ((ns, k), v) l -> attribute_ns ns = Some u -> namespace u /\ lookup [] (scope_of (m :: up)) <> Some u) ->
  exists m2 w, attribute_names m up l = Ok (m2, w) /\ all_ok (m2 :: up) /\
    (forall p u, lookup p (scope_of (m :: up)) = Some u -> lookup p (scope_of (m2 :: up)) = Some u) /\
    lookup [] (scope_of (m2 :: up)) = lookup [] (scope_of (m :: up)) /\ Forall2 (written (m2 :: up)) l w.
Proof.
  induction l as [|[[ns k] v] l IH]; intros m H Ha.
  { exists m, []. split; [reflexivity|]. split; [exact H|]. split; [auto|]. split; [reflexivity|constructor]. }
  cbn [attribute_names].
  assert (S : exists m1 p, match GetPrefix (m :: up) ns, ns with Some p, _ => Ok (m, p) | None, Some u => MakePrefix m up u None | None, None => Ok (m, []) end = Ok (m1, p) /\
    all_ok (m1 :: up) /\ (forall p u, lookup p (scope_of (m :: up)) = Some u -> lookup p (scope_of (m1 :: up)) = Some u) /\
    lookup [] (scope_of (m1 :: up)) = lookup [] (scope_of (m :: up)) /\ attribute_named (m1 :: up) ns p).
  { destruct ns as [u|].
    2:{ exists m, []. cbn. auto. }
    destruct (str_eqb u (lit "~")) eqn:E.
    { exists m, []. apply str_eqb_eq in E. subst u. change (GetPrefix (m :: up) (Some (lit "~"))) with (Some (@nil Z)).
      split; [reflexivity|]. split; [exact H|]. split; [auto|]. split; [reflexivity|]. reflexivity. }
    assert (A : attribute_ns (Some u) = Some u) by (unfold attribute_ns; now rewrite E).
    destruct (Ha (Some u) k v u (or_introl eq_refl) A) as [Hu Hd]. unfold attribute_named. rewrite A.
    destruct (GetPrefix (m :: up) (Some u)) as [p|] eqn:G.
    - exists m, p. split; [reflexivity|]. split; [exact H|]. split; [auto|]. split; [reflexivity|].
      apply GetPrefix_sound in G as [G|[G1 G2]]; [now left| |exact H|exact Hu]. right. split; [exact G1|]. split; [|exact G2].
      intros ->. now apply Hd.
    - destruct (MakePrefix_new m up u H) as (p & E' & H1 & H2 & H3). exists (with_prefix m p u), p. split; [exact E'|].
      assert (Hx : u <> xml_uri).
      { intros ->. unfold GetPrefix in G. change XML_NAMESPACE with xml_uri in G. rewrite str_eqb_refl in G. discriminate. }
      assert (N : lookup p (prefixToNS m) = None). { rewrite scope_cons, lookup_app in H3. now destruct (lookup p (prefixToNS m)). }
      apply Forall_cons_iff in H as [Hm H]. split; [constructor; [now apply with_prefix_ok|exact H]|]. split.
      + intros p' u' K. rewrite scope_with. destruct (str_eqb p' p) eqn:F; [apply str_eqb_eq in F; subst; congruence|exact K].
      + split; [rewrite scope_with; destruct p; [congruence|reflexivity]|]. right. split; [exact Hx|]. split; [exact H2|].
        rewrite scope_with. now rewrite str_eqb_refl. }
  destruct S as (m1 & p & -> & H1 & H2 & H3 & H4). cbn [bind].
  destruct (IH m1 H1) as (m2 & w & -> & I1 & I2 & I3 & I4).
  { intros ns' k' v' u' K A. destruct (Ha ns' k' v' u' (or_intror K) A) as [K1 K2]. split; [exact K1|]. now rewrite H3. }
  cbn [bind]. exists m2, ((qname p k, v) :: w). split; [reflexivity|]. split; [exact I1|]. split; [auto|]. split; [congruence|].
  constructor; [|exact I4]. split; [reflexivity|]. exists p. split; [reflexivity|]. cbn [fst snd].
  unfold attribute_named in *. destruct (attribute_ns ns); [|exact H4]. destruct H4 as [K|(K1 & K2 & K3)]; [now left|right; auto].
Qed.
Lemma attribute_names_same up l : forall m m2 w, (forall ns k v, In ((ns, k), v) l -> GetPrefix (m :: up) ns <> None) ->
  attribute_names m up l = Ok (m2, w) -> m2 = m.
Proof.
  induction l as [|[[ns k] v] l IH]; intros m m2 w H; [intros [= <- _]; reflexivity|]. cbn [attribute_names].
  assert (K : GetPrefix (m :: up) ns <> None) by (apply (H ns k v); now left). destruct (GetPrefix (m :: up) ns) as [p|]; [|congruence].
  cbn [bind]. destruct (attribute_names m up l) as [[m' w']|] eqn:E; [|discriminate]. cbn [bind]. intros [= -> _].
  apply IH in E; [exact E|]. intros ns' k' v' K'. apply (H ns' k' v'). now right.
Qed.

(** ** Sorting *)
Lemma insert_name_perm {A} (x : (option str * str) * A) l : Permutation (insert_name x l) (x :: l).
Proof.
  induction l as [|y l IH]; [reflexivity|]. cbn [insert_name]. destruct (cmp_name (fst x) (fst y)); try reflexivity.
  etransitivity; [apply perm_skip, IH|]. apply perm_swap.
Qed.
Lemma sort_keys_perm {A} (l : list ((option str * str) * A)) : Permutation (sort_keys l) l.
Proof. induction l as [|x l IH]; [constructor|]. cbn. etransitivity; [apply insert_name_perm|]. now constructor. Qed.

(** ** The scope that is written *)
Definition agree (ws : list (list (str * str))) (c : context) : Prop := forall p u, bound ws p u <-> lookup p (scope_of c) = Some u.
Lemma in_lookup (l : list (str * str)) k v : NoDup (map fst l) -> In (k, v) l <-> lookup k l = Some v.
Proof. intros H. split; [now apply lookup_dict|apply lookup_in]. Qed.
Definition in_force (root : bool) (m : maps) (up : context) : list (str * str) := if root then scope_of (m :: up) else prefixToNS m.
Lemma declared_in root m up k u : maps_ok m ->
  In (k, u) (WriteNSAttributes root m up) <-> exists p, k = declaration_name p /\ lookup p (in_force root m up) = Some u.
Proof.
  intros Hm. unfold WriteNSAttributes. rewrite in_map_iff.
  set (d := if root then GetPrefixMap (m :: up) else prefixToNS m).
  assert (D : NoDup (map fst d)) by (unfold d; destruct root; [apply complete_keys|apply Hm]).
  assert (L : forall p, lookup p d = lookup p (in_force root m up)) by (intros p; unfold d, in_force; destruct root; [apply complete_lookup|reflexivity]).
  split.
  - intros ([p u'] & E & K). injection E as <- <-. exists p. split; [reflexivity|]. rewrite <- L. apply in_lookup; [exact D|].
    eapply Permutation_in; [apply sort_perm|exact K].
  - intros (p & -> & K). exists (p, u). split; [reflexivity|]. rewrite <- L in K. apply in_lookup in K; [|exact D].
    eapply Permutation_in; [symmetry; apply sort_perm|exact K].
Qed.
Lemma declared_keys root m up : maps_ok m -> NoDup (map fst (WriteNSAttributes root m up)).
Proof.
  intros Hm. unfold WriteNSAttributes. rewrite map_map. set (d := if root then GetPrefixMap (m :: up) else prefixToNS m).
  assert (D : NoDup (map fst (SortNames d))).
  { apply sort_dict. unfold dictionary, d. destruct root; [apply complete_keys|apply Hm]. }
  replace (map (fun x => fst (let '(p, u) := x in (declaration_name p, u))) (SortNames d)) with (map declaration_name (map fst (SortNames d))).
  2:{ rewrite map_map. apply map_ext. now intros [p u]. }
  clearbody d. induction (map fst (SortNames d)) as [|p l IH]; [constructor|]. apply NoDup_cons_iff in D as [D1 D2]. cbn. constructor; [|now apply IH].
  intros K. apply in_map_iff in K as (p' & E & K). apply declaration_inj in E. now subst.
Qed.
Section Element.
Variables (root : bool) (m : maps) (up : context) (l : list ((option str * str) * str)) (w : list (str * str)).
Hypothesis Hok : all_ok (m :: up).
Hypothesis Hl : forall ns k v, In ((ns, k), v) l -> bmp_ncname k /\ line v /\
  (forall u, attribute_ns ns = Some u -> namespace u) /\ (attribute_ns ns = None -> k <> lit "xmlns").
Hypothesis Hd : NoDup (map (fun x => (attribute_ns (fst (fst x)), snd (fst x))) l).
Hypothesis Hw : Forall2 (written (m :: up)) l w.
Let D := WriteNSAttributes root m up.

Lemma named_prefix ns p : attribute_named (m :: up) ns p -> (p = [] /\ attribute_ns ns = None) \/
  (p = lit "xml" /\ attribute_ns ns = Some xml_uri) \/
  (bmp_ncname p /\ p <> lit "xml" /\ ~ begins_with (lit "xmlns") p /\ exists u, attribute_ns ns = Some u /\ u <> xml_uri /\ lookup p (scope_of (m :: up)) = Some u).
Proof.
  unfold attribute_named. destruct (attribute_ns ns) as [u|]; [|now left]. intros [[-> ->]|(H1 & H2 & H3)]; [right; now left|].
  right. right. destruct (scope_ok _ _ _ Hok H3) as [[K|(K1 & K2 & K3)] _]; [congruence|]. split; [exact K1|]. split; [exact K2|]. split; [exact K3|]. eauto.
Qed.
Lemma named_colon ns p : attribute_named (m :: up) ns p -> ~ In 58 p /\ p <> lit "xmlns" /\ (p = [] \/ bmp_ncname p).
Proof.
  intros H. apply named_prefix in H as [[-> _]|[[-> _]|(H & H1 & H2 & _)]].
  - split; [intros []|]. split; [discriminate|now left].
  - split; [apply xml_ncname|]. split; [discriminate|right; apply xml_ncname].
  - split; [apply H|]. split; [now apply begins_xmlns|now right].
Qed.
Lemma written_in k v : In (k, v) w -> exists ns n p, In ((ns, n), v) l /\ k = qname p n /\ attribute_named (m :: up) ns p.
Proof.
  clear Hl Hd. induction Hw as [|[[ns n] v'] [k' v2] l0 w0 [H1 (p & H2 & H3)] H IH]; [intros []|]. cbn [fst snd] in *. subst.
  intros [K|K].
  - injection K as <- <-. exists ns, n, p. split; [now left|auto].
  - destruct (IH H K) as (ns' & n' & p' & K1 & K2 & K3). exists ns', n', p'. split; [now right|auto].
Qed.
Lemma written_not_declared k v p : In (k, v) w -> k <> declaration_name p.
Proof.
  intros K. apply written_in in K as (ns & n & q & K & -> & Hq). destruct (Hl _ _ _ K) as (Hn & _ & _ & Hx).
  destruct (named_colon _ _ Hq) as (H1 & H2 & _). apply declaration_qname; [exact H1|apply Hn|exact H2|].
  intros ->. apply Hx. apply named_prefix in Hq as [[_ H]|[[H _]|[H _]]]; [exact H|discriminate|]. now destruct (ncname_nil [] (bmp_nc _ H)).
Qed.
Lemma written_keys : NoDup (map fst w).
Proof.
  revert Hl Hd. clear D. induction Hw as [|[[ns n] v] [k v2] l0 w0 [H1 (p & H2 & H3)] H IH]; intros HL HD; [constructor|].
  cbn [map fst snd] in *. subst. apply NoDup_cons_iff in HD as [D1 D2]. constructor.
  - intros K. apply in_map_iff in K as ([k' v'] & E & K). cbn in E. subst k'.
    assert (K' : exists ns' n' p', In ((ns', n'), v') l0 /\ qname p n = qname p' n' /\ attribute_named (m :: up) ns' p').
    { revert K H. clear. intros K H. induction H as [|[[ns' n'] v2] [k' v3] l0 w0 [H1 (p' & H2 & H3)] H IH]; [destruct K|].
      cbn [fst snd] in *. subst. destruct K as [K|K].
      - injection K as E <-. exists ns', n', p'. split; [now left|]. split; [now symmetry|exact H3].
      - destruct (IH K) as (a & b & c & K1 & K2 & K3). exists a, b, c. split; [now right|auto]. }
    destruct K' as (ns' & n' & p' & K1 & K2 & K3). destruct (HL ns n v2 (or_introl eq_refl)) as (Hn & _). destruct (HL ns' n' v' (or_intror K1)) as (Hn' & _).
    apply qname_inj in K2 as [<- <-]; [|exact (proj1 (named_colon ns p H3))|apply Hn|exact (proj1 (named_colon ns' p' K3))|apply Hn'].
    apply D1. apply in_map_iff. exists ((ns', n), v'). split; [|exact K1]. cbn [fst snd]. f_equal.
    apply named_prefix in H3, K3.
    destruct H3 as [[E1 ->]|[[E1 ->]|(B & E1 & E2 & u & -> & _ & E3)]]; destruct K3 as [[F1 ->]|[[F1 ->]|(B' & F1 & F2 & u' & -> & _ & F3)]]; try congruence.
    all: subst; try discriminate; try now destruct (ncname_nil [] (bmp_nc _ B)). all: try now destruct (ncname_nil [] (bmp_nc _ B')).
  - apply IH; [exact H|intros a b c K; apply (HL a b c); now right|exact D2].
Qed.
Lemma all_keys : NoDup (map fst (D ++ w)).
Proof.
  rewrite map_app. pose proof (declared_keys root m up (Forall_inv Hok)) as K. fold D in K. pose proof written_keys as K'.
  assert (X : forall k, In k (map fst D) -> ~ In k (map fst w)).
  { intros k Hk Hk'. apply in_map_iff in Hk as ([k0 u] & <- & Hk). apply in_map_iff in Hk' as ([k1 u'] & E & Hk'). cbn in E. subst k1.
    apply (declared_in root m up _ _ (Forall_inv Hok)) in Hk as (p & E & _). cbn in Hk'. now apply (written_not_declared _ _ p Hk'). }
  induction (map fst D) as [|k d IH]; [exact K'|]. cbn. apply NoDup_cons_iff in K as [K1 K2]. constructor.
  - rewrite in_app_iff. intros [G|G]; [contradiction|]. apply (X k); [now left|exact G].
  - apply IH; [exact K2|]. intros k' G. apply X. now right.
Qed.
Lemma declared_here p k u : declaration k p -> In (k, u) (D ++ w) <-> lookup p (in_force root m up) = Some u.
Proof.
  intros H. apply declaration_eq in H as ->. rewrite in_app_iff. unfold D. rewrite (declared_in root m up _ _ (Forall_inv Hok)). split.
  - intros [(p' & E & K)|K]; [apply declaration_inj in E; now subst|]. now destruct (written_not_declared _ _ p K).
  - intros K. left. eauto.
Qed.
Lemma force_ok p u : lookup p (in_force root m up) = Some u -> lookup p (scope_of (m :: up)) = Some u.
Proof. unfold in_force. destruct root; [auto|]. intros H. rewrite scope_cons, lookup_app, H. reflexivity. Qed.
Lemma all_legal : legal (D ++ w).
Proof.
  intros k p u Hk K. apply (declared_here p k u Hk) in K. apply force_ok, (scope_ok _ _ _ Hok) in K as (Hp & (_ & Hn & _ & Hx) & Hu).
  split; [destruct Hp as [->|(_ & _ & Hp)]; [discriminate|now apply begins_xmlns]|]. split; [exact Hx|]. split.
  - split; [|congruence]. intros ->. destruct Hp as [Hp|(_ & Hp & _)]; [discriminate|congruence].
  - intros Hp'. destruct Hp as [Hp|(Hp & _)]; [congruence|]. split; [now apply bmp_nc|exact Hn].
Qed.
Lemma agree_step ws : (if root then ws = [] else agree ws up) -> agree ((D ++ w) :: ws) (m :: up).
Proof.
  intros H p u.
  assert (Q : (forall k, declaration k p -> ~ In k (map fst (D ++ w))) <-> lookup p (in_force root m up) = None).
  { split.
    - intros K. destruct (lookup p (in_force root m up)) as [v|] eqn:E; [|reflexivity]. exfalso.
      assert (Dk : declaration (declaration_name p) p) by now apply declaration_eq. apply (K _ Dk).
      apply (declared_here p _ v Dk) in E. now apply (in_map fst) in E.
    - intros E k Hk K. apply in_map_iff in K as ([k' v] & <- & K). apply (declared_here p k' v Hk) in K. congruence. }
  split.
  - intros K. inversion K; subst.
    + apply force_ok. match goal with H1 : declaration _ _, H2 : In _ _ |- _ => apply (declared_here _ _ _ H1) in H2; exact H2 end.
    + match goal with H1 : forall k, declaration k p -> _, H2 : bound ws p u |- _ => apply Q in H1; destruct root; [subst ws; inversion H2|apply H in H2] end.
      cbn [in_force] in *. rewrite scope_cons, lookup_app. match goal with H1 : lookup p _ = None |- _ => now rewrite H1 end.
  - intros K. assert (Dk : declaration (declaration_name p) p) by now apply declaration_eq.
    destruct (lookup p (in_force root m up)) as [v|] eqn:E.
    + assert (v = u) as -> by (apply force_ok in E; congruence). apply bo_here with (declaration_name p); [exact Dk|]. now apply (declared_here p _ u Dk).
    + apply bo_up; [now apply Q|]. destruct root; [unfold in_force in E; congruence|]. apply H. unfold in_force in E.
      rewrite scope_cons, lookup_app, E in K. exact K.
Qed.
Lemma prefix_resolves ws d p n u : agree ((D ++ w) :: ws) (m :: up) -> bmp_ncname n ->
  lookup p (scope_of (m :: up)) = Some u -> p <> [] -> resolves ((D ++ w) :: ws) d (qname p n) (Some u, n).
Proof.
  intros A Hn K Hp. destruct (scope_ok _ _ _ Hok K) as ([K'|(K1 & K2 & K3)] & (_ & Hu & _) & _); [congruence|].
  rewrite qname_eq by exact Hp. apply re_prefix; [now apply bmp_nc|now apply bmp_nc|exact K2|now apply begins_xmlns|now apply A|exact Hu].
Qed.
Definition meant (x : (option str * str) * str) : xname * str := ((attribute_ns (fst (fst x)), snd (fst x)), snd x).
Lemma attributes_meant ws : agree ((D ++ w) :: ws) (m :: up) -> attributes_mean ((D ++ w) :: ws) (D ++ w) (map meant l).
Proof.
  intros A.
  assert (G : attributes_mean ((D ++ w) :: ws) w (map meant l)).
  { assert (N : forall k v, In (k, v) w -> forall p, ~ declaration k p).
    { intros k v K p G. apply declaration_eq in G. now apply (written_not_declared k v p K). }
    revert N A. generalize ((D ++ w) :: ws) as sc. intros sc N A. revert Hl N A. clear Hd.
    assert (R : forall ns n p, bmp_ncname n -> attribute_named (m :: up) ns p -> agree sc (m :: up) -> resolves sc false (qname p n) (attribute_ns ns, n)).
    { clear Hw. intros ns n p Hn Hp A. apply named_prefix in Hp as [[-> ->]|[[-> ->]|(B & H1 & H2 & u & -> & H4 & H5)]].
      - apply re_attribute. now apply bmp_nc.
      - change (qname (lit "xml") n) with (lit "xml:" ++ n). apply re_xml. now apply bmp_nc.
      - rewrite qname_eq by (apply ncname_nil; now apply bmp_nc). apply re_prefix; try (now apply bmp_nc); auto; [now apply begins_xmlns|now apply A|].
        destruct (scope_ok _ _ _ Hok H5) as (_ & (_ & Hu & _) & _). exact Hu. }
    revert R. induction Hw as [|[[ns n] v] [k v2] l0 w0 [H1 (p & H2 & H3)] H IH]; intros R HL N A; [constructor|].
    cbn [map meant fst snd] in *. subst. apply am_attribute.
    - apply (N _ v2). now left.
    - apply R; [apply (HL ns n v2); now left|exact H3|exact A].
    - apply IH; auto; [intros a b c K; apply (HL a b c)|intros a b K; apply (N a b)]; now right. }
  assert (DD : forall k u, In (k, u) D -> exists p, declaration k p).
  { intros k u K. apply (declared_in root m up _ _ (Forall_inv Hok)) in K as (p & E & _). exists p. now apply declaration_eq. }
  revert G. generalize (map meant l) as x. generalize ((D ++ w) :: ws) as sc. intros sc x G. revert DD. generalize D as d0. intros d0. induction d0 as [|[k u] d IH]; intros DD; [exact G|].
  cbn [app]. destruct (DD k u (or_introl eq_refl)) as (p & Hp). apply am_declaration with p; [exact Hp|]. apply IH. intros k' u' K. apply (DD k' u'). now right.
Qed.
End Element.
