(** Elements without prefixes; reading names: proofs. *)
From Coq Require Import Lia Permutation.
From Verif Require Import Py XmlChars XmlDoc XmlOut XmlNs.
From Verif Require Import XmlCharsSpec XmlDocSpec XmlOutSpec XmlNsSpec XmlCharsProofs XmlDocProofs XmlDocProofs2 XmlOutProofs XmlOutProofs2 XmlOutProofs3 XmlNsProofs XmlNsProofs2 XmlNsProofs3.
From Verif Require Imscp ImscpProofs.
Open Scope Z_scope.
Open Scope list_scope.

(** ** Elements made without prefixes *)
Lemma no_maps_ok : maps_ok no_maps.
Proof. constructor; [constructor|discriminate..]. Qed.
Lemma fresh_fits (D : str -> Prop) t : proper t -> fresh t -> (forall u, element_in u t -> D u) ->
  (forall u, attribute_in u t -> u <> xml_uri -> ~ D u) ->
  forall inside up, all_ok up -> placed inside t -> (inside = false -> lookup [] (scope_of up) = None) ->
    (forall u, lookup [] (scope_of up) = Some u -> D u) -> fits up t.
Proof.
  induction t as [ns n a m ch IH] using nelem_induct. intros Hp Hf He Ha inside up Hup Hpl Hin Hdef.
  apply throughout_in in Hp as [(_ & Hns & _ & Hat & _ & _) Hpc]. apply throughout_in in Hf as [-> Hfc].
  inversion Hpl as [inside' ns' n' a' m' ch' Hi Hch]; subst.
  assert (Hok : all_ok (no_maps :: up)) by (constructor; [apply no_maps_ok|exact Hup]).
  destruct (element_prefix_total no_maps up ns eq_refl) as (m1 & p & E).
  destruct (element_prefix_sound no_maps up ns m1 p Hok Hns E) as (Hok1 & _ & Hm1).
  assert (D1 : forall u, lookup [] (scope_of (m1 :: up)) = Some u -> D u).
  { intros u K. destruct Hm1 as [->|(u' & En & -> & _)]; [now apply Hdef|]. rewrite scope_with in K. cbn in K. injection K as <-.
    apply He. destruct ns as [[|x w]|]; cbn in En; try discriminate. injection En as <-. constructor. }
  assert (A1 : forall u k v w, In ((u, k), v) a -> attribute_ns u = Some w -> lookup [] (scope_of (m1 :: up)) <> Some w).
  { intros u k v w K A G. pose proof (scope_ok _ _ _ Hok1 G) as (_ & _ & Hx). apply (Ha w); [|exact Hx|now apply D1].
    apply ai_here with k v. destruct u as [u|]; [|discriminate]. unfold attribute_ns in A. destruct (str_eqb u (lit "~")); [discriminate|].
    now injection A as ->. }
  apply fi with m1 p; auto using no_maps_ok.
  - intros En. apply Hin. destruct inside; [|reflexivity]. now destruct (Hi eq_refl).
  - intros m2 w Ew e K.
    destruct (attribute_names_ok up (sort_keys a) m1 Hok1) as (m2' & w' & Ew' & Hok2 & _ & Hnil & _).
    { intros u k v x K' A. assert (K2 : In ((u, k), v) a) by (eapply Permutation_in; [apply sort_keys_perm|exact K']).
      split; [now apply (Hat u k v)|now apply (A1 u k v x)]. }
    rewrite Ew in Ew'. injection Ew' as <- <-.
    apply (IH e K (Hpc e K) (Hfc e K)) with (inside := match element_ns ns with None => false | Some _ => true end).
    + intros u G. apply He. now apply ei_inside with e.
    + intros u G. apply Ha. now apply ai_inside with e.
    + exact Hok2.
    + now apply Hch.
    + intros En. rewrite Hnil. destruct (element_ns ns) as [u|] eqn:Ens; [discriminate|]. destruct Hm1 as [->|(u & G & _)]; [|congruence].
      apply Hin. destruct inside; [|reflexivity]. now destruct (Hi eq_refl).
    + rewrite Hnil. exact D1.
Qed.

(** ** Names *)
Lemma split_one q : ~ In 58 q -> Imscp.split_on 58 q = [q].
Proof.
  intros H. change q with (Imscp.join_with 58 [q]) at 1. apply ImscpProofs.split_on_join; [discriminate|]. now constructor.
Qed.
Lemma split_two p l : ~ In 58 p -> ~ In 58 l -> Imscp.split_on 58 (p ++ colon ++ l) = [p; l].
Proof.
  intros H H'. change (p ++ colon ++ l) with (Imscp.join_with 58 [p; l]). apply ImscpProofs.split_on_join; [discriminate|]. now repeat constructor.
Qed.
Definition filled (c : context) : Prop := forall m p u, In m c -> lookup p (prefixToNS m) = Some u -> u <> [].
Lemma ns_loop_filled c p : filled c -> ns_loop c p = lookup p (scope_of c).
Proof.
  induction c as [|m c IH]; intros H; [reflexivity|]. cbn [ns_loop]. rewrite scope_cons, lookup_app.
  destruct (lookup p (prefixToNS m)) as [[|x u]|] eqn:E; [|reflexivity|].
  - now destruct (H m p [] (or_introl eq_refl) E).
  - destruct c; [now destruct p|]. apply IH. intros m' p' u K. apply (H m' p' u). now right.
Qed.
Lemma find_ns_scope c ns p : filled c -> p <> lit "xml" -> find_ns c ns p = lookup p (ns ++ scope_of c).
Proof.
  intros H Hp. unfold find_ns, GetNS. rewrite lookup_app. destruct (lookup p ns); [reflexivity|]. apply str_eqb_neq in Hp. rewrite Hp. now apply ns_loop_filled.
Qed.

(** ** Definitions *)
Lemma begins_iff k : XmlNs.begins_xmlns k = true <-> begins_with (lit "xmlns") k.
Proof.
  unfold XmlNs.begins_xmlns. rewrite str_eqb_eq. split.
  - intros E. exists (skipn 5 k). rewrite <- E. symmetry. apply firstn_skipn.
  - intros (r & ->). reflexivity.
Qed.
Lemma declaration_begins k p : XmlNsSpec.declaration k p -> begins_with (lit "xmlns") k.
Proof. intros [[-> _]|[-> _]]; [exists []; reflexivity|exists (colon ++ p); reflexivity]. Qed.
Definition only_declares (a : list (str * str)) : Prop := forall k u, In (k, u) a -> begins_with (lit "xmlns") k -> exists p, XmlNsSpec.declaration k p.
Lemma only_tail x a : only_declares (x :: a) -> only_declares a.
Proof. intros H k u K. apply (H k u). now right. Qed.
Lemma definitions_cons k v l : only_declares ((k, v) :: l) ->
  (exists p, k = declaration_name p /\ ns_definitions ((k, v) :: l) = (p, v) :: ns_definitions l) \/
  ((forall p, k <> declaration_name p) /\ ns_definitions ((k, v) :: l) = ns_definitions l).
Proof.
  intros H. cbn [ns_definitions]. destruct (XmlNs.begins_xmlns k) eqn:E.
  - left. apply begins_iff in E. destruct (H k v (or_introl eq_refl) E) as (p & Hp). apply declaration_eq in Hp. subst k.
    exists p. split; [reflexivity|]. destruct p; reflexivity.
  - right. split; [|reflexivity]. intros p ->.
    assert (F : XmlNs.begins_xmlns (declaration_name p) = true) by (apply begins_iff, (declaration_begins _ p); now apply declaration_eq). congruence.
Qed.
Lemma defined_in p u a : only_declares a -> In (p, u) (ns_definitions a) <-> In (declaration_name p, u) a.
Proof.
  induction a as [|[k v] l IH]; intros H; [reflexivity|]. specialize (IH (only_tail _ _ H)).
  destruct (definitions_cons k v l H) as [(p' & -> & ->)|(N & ->)]; cbn [In].
  - rewrite IH. split; (intros [K|K]; [left|now right]).
    + injection K as -> ->. reflexivity.
    + injection K as K ->. apply declaration_inj in K. now subst.
  - rewrite IH. split; [now right|]. intros [K|K]; [|exact K]. injection K as -> ->. now destruct (N p).
Qed.
Lemma defined_keys a : only_declares a -> NoDup (map fst a) -> NoDup (map fst (ns_definitions a)).
Proof.
  induction a as [|[k v] l IH]; intros H N; [constructor|]. cbn [map fst] in N. apply NoDup_cons_iff in N as [N1 N2].
  specialize (IH (only_tail _ _ H) N2). destruct (definitions_cons k v l H) as [(p & -> & ->)|(_ & ->)]; [|exact IH].
  cbn [map fst]. constructor; [|exact IH]. intros K. apply N1. apply in_map_iff in K as ([q u] & E & K). cbn in E. subst q.
  apply defined_in in K; [|exact (only_tail _ _ H)]. now apply (in_map fst) in K.
Qed.
Section Definitions.
Variable a : list (str * str).
Hypothesis Hk : NoDup (map fst a).
Hypothesis Hb : only_declares a.
Lemma definitions_eq : definitions a = ns_definitions a.
Proof.
  unfold definitions. pose proof (defined_keys a Hb Hk) as K.
  assert (G : forall l d, NoDup (map fst (d ++ l)) -> fold_left (fun (d : list (str * str)) '(p, u) => set p u d) l d = d ++ l).
  { induction l as [|[p u] l IH]; intros d N; cbn [fold_left]; [now rewrite app_nil_r|]. rewrite set_new.
    - rewrite IH; rewrite <- app_assoc; [reflexivity|exact N].
    - apply lookup_none. rewrite map_app in N. cbn in N. apply NoDup_remove_2 in N. intros K'. apply N. apply in_app_iff. now left. }
  now apply (G (ns_definitions a) []).
Qed.
Lemma definitions_lookup p u : lookup p (definitions a) = Some u <-> In (declaration_name p, u) a.
Proof. rewrite definitions_eq, <- (defined_in _ _ _ Hb). symmetry. apply in_lookup. now apply defined_keys. Qed.
Lemma definitions_agree ws c i : agree ws c -> agree (a :: ws) (Maps (definitions a) i :: c).
Proof.
  intros H p u.
  assert (Q : (forall k, XmlNsSpec.declaration k p -> ~ In k (map fst a)) <-> lookup p (definitions a) = None).
  { split.
    - intros K. destruct (lookup p (definitions a)) as [v|] eqn:E; [|reflexivity]. exfalso. apply definitions_lookup in E.
      apply (in_map fst) in E. revert E. apply K. now apply declaration_eq.
    - intros E k Kk K. apply declaration_eq in Kk. subst k. apply in_map_iff in K as ([k v] & E' & K). cbn in E'. subst k. apply definitions_lookup in K. congruence. }
  rewrite scope_cons, lookup_app. cbn [prefixToNS]. split.
  - intros K. inversion K; subst.
    + match goal with H1 : XmlNsSpec.declaration _ _, H2 : In _ _ |- _ => apply declaration_eq in H1; subst; apply definitions_lookup in H2; now rewrite H2 end.
    + match goal with H1 : forall k, XmlNsSpec.declaration k p -> _, H2 : bound ws p u |- _ => apply Q in H1; rewrite H1; now apply H end.
  - intros K. destruct (lookup p (definitions a)) as [v|] eqn:E.
    + injection K as ->. apply bo_here with (declaration_name p); [now apply declaration_eq|]. now apply definitions_lookup.
    + apply bo_up; [now apply Q|]. now apply H.
Qed.
End Definitions.

(** ** Reading names *)
Definition raw (n : xname) : option str * str := (match fst n with None => Some (lit "~") | Some u => Some u end, snd n).
Lemma expand_attribute sc c i ns k n : agree sc (Maps ns i :: c) -> filled c -> (forall p, ~ XmlNsSpec.declaration k p) -> resolves sc false k n ->
  ~ begins_with (lit "xmlns") k -> ExpandQName c k ns false = Ok (raw n).
Proof.
  intros A F Hn R Hb. unfold ExpandQName. inversion R; subst.
  - change (lit "xml:" ++ l) with (lit "xml" ++ colon ++ l). rewrite split_two; [|apply xml_ncname|match goal with H : ncname _ |- _ => apply H end]. reflexivity.
  - change (p ++ lit ":" ++ l) with (p ++ colon ++ l). rewrite split_two by (match goal with H : ncname ?x |- ~ In 58 ?x => apply H end).
    match goal with H1 : p <> lit "xml", H2 : p <> lit "xmlns", H3 : bound _ _ _ |- _ =>
      rewrite (proj2 (Py.str_eqb_neq _ _) H1), (proj2 (Py.str_eqb_neq _ _) H2), (find_ns_scope c ns p F H1); apply A in H3; rewrite scope_cons in H3; cbn [prefixToNS] in H3; rewrite H3 end.
    reflexivity.
  - rewrite split_one by (match goal with H : ncname _ |- _ => apply H end).
    assert (E : k <> lit "xmlns") by (intros ->; apply Hb; exists []; reflexivity). rewrite (proj2 (Py.str_eqb_neq _ _) E). reflexivity.
Qed.
Lemma expand_element sc c i ns q n : agree sc (Maps ns i :: c) -> filled (Maps ns i :: c) -> resolves sc true q n -> q <> lit "xmlns" -> 
  exists u, ExpandQName c q ns true = Ok (u, snd n) /\ element_ns u = fst n.
Proof.
  intros A F R Hq. unfold ExpandQName.
  assert (F' : filled c) by (intros m p u K; apply (F m p u); now right).
  inversion R; subst.
  - change (lit "xml:" ++ l) with (lit "xml" ++ colon ++ l). rewrite split_two; [|apply xml_ncname|match goal with H : ncname _ |- _ => apply H end].
    eexists. split; reflexivity.
  - change (p ++ lit ":" ++ l) with (p ++ colon ++ l). rewrite split_two by (match goal with H : ncname ?x |- ~ In 58 ?x => apply H end).
    match goal with H1 : p <> lit "xml", H2 : p <> lit "xmlns", H3 : bound _ _ _ |- _ =>
      rewrite (proj2 (Py.str_eqb_neq _ _) H1), (proj2 (Py.str_eqb_neq _ _) H2), (find_ns_scope c ns p F' H1); apply A in H3; rewrite scope_cons in H3; cbn [prefixToNS] in H3; rewrite H3 end.
    eexists. split; [reflexivity|]. destruct u; [congruence|reflexivity].
  - rewrite split_one by (match goal with H : ncname _ |- _ => apply H end). rewrite (proj2 (Py.str_eqb_neq _ _) Hq).
    rewrite (find_ns_scope c ns [] F') by discriminate.
    match goal with H3 : bound _ _ _ |- _ => apply A in H3; rewrite scope_cons in H3; cbn [prefixToNS] in H3; rewrite H3 end.
    eexists. split; [reflexivity|]. destruct u; [congruence|reflexivity].
  - rewrite split_one by (match goal with H : ncname _ |- _ => apply H end). rewrite (proj2 (Py.str_eqb_neq _ _) Hq).
    rewrite (find_ns_scope c ns [] F') by discriminate.
    destruct (lookup [] (ns ++ scope_of c)) as [u|] eqn:E; [|eexists; split; reflexivity].
    exfalso. assert (B : bound sc [] u) by (apply A; exact E).
    assert (u = []) as -> by (match goal with H : forall u, bound _ _ _ -> _ |- _ => now apply H end).
    change (ns ++ scope_of c) with (scope_of (Maps ns i :: c)) in E. apply scope_in in E as (m & K & E). now apply (F m [] []).
Qed.
Lemma same_name_eq a b : same_name a b = true <-> a = b.
Proof.
  unfold same_name, cmp_name. destruct a as [[u|] k], b as [[v|] k']; cbn [fst snd].
  - destruct (cmp_str u v) eqn:E.
    + apply cmp_eq in E. subst. destruct (cmp_str k k') eqn:E'; [apply cmp_eq in E'; subst; tauto| |]; split; try discriminate; intros [= ->]; rewrite cmp_refl in E'; discriminate.
    + split; [discriminate|]. intros [= -> _]. rewrite cmp_refl in E. discriminate.
    + split; [discriminate|]. intros [= -> _]. rewrite cmp_refl in E. discriminate.
  - split; discriminate.
  - split; discriminate.
  - destruct (cmp_str k k') eqn:E'; [apply cmp_eq in E'; subst; tauto| |]; split; try discriminate; intros [= ->]; rewrite cmp_refl in E'; discriminate.
Qed.
Lemma set_attr_new k v d : ~ In k (map fst d) -> set_attr k v d = d ++ [(k, v)].
Proof.
  induction d as [|[k' v'] d IH]; intros H; [reflexivity|]. cbn [set_attr]. destruct (same_name k k') eqn:E.
  - apply same_name_eq in E. subst. destruct H. now left.
  - cbn. f_equal. apply IH. intros K. apply H. now right.
Qed.
Definition raw_attr (x : xname * str) : (option str * str) * str := (raw (fst x), snd x).
Lemma expand_attributes_ok sc c i ns : agree sc (Maps ns i :: c) -> filled c -> forall a xa, attributes_mean sc a xa ->
  only_declares a ->
  forall d, NoDup (map fst (d ++ map raw_attr xa)) -> expand_attributes c ns a d = Ok (d ++ map raw_attr xa).
Proof.
  intros A F a xa H. induction H as [|k p v l x Hk H IH|k n v l x Hk R H IH]; intros Hb d N.
  - cbn. now rewrite app_nil_r.
  - cbn [expand_attributes]. rewrite (proj2 (begins_iff k) (declaration_begins _ _ Hk)). apply IH; [|exact N]. intros k' u K. apply (Hb k' u). now right.
  - cbn [expand_attributes]. assert (B : ~ begins_with (lit "xmlns") k).
    { intros G. destruct (Hb k v (or_introl eq_refl) G) as (p & Hp). now apply (Hk p). }
    destruct (XmlNs.begins_xmlns k) eqn:E; [apply begins_iff in E; contradiction|].
    rewrite (expand_attribute sc c i ns k n A F Hk R B). cbn [bind]. cbn [map] in N |- *. change (raw_attr (n, v)) with (raw n, v) in N |- *.
    rewrite set_attr_new.
    + rewrite IH; [now rewrite <- app_assoc|intros k' u K; apply (Hb k' u); now right|now rewrite <- app_assoc].
    + rewrite map_app in N. cbn in N. apply NoDup_remove_2 in N. intros K. apply N. apply in_app_iff. now left.
Qed.
Fixpoint expand_all (c : context) (l : list node) : result (list (str + nelem)) :=
  match l with
  | [] => Ok []
  | inl s :: l' => r <- expand_all c l' ;; Ok (inl s :: r)
  | inr e :: l' => x <- Expand c e ;; r <- expand_all c l' ;; Ok (inr x :: r)
  end.
Lemma Expand_eq c q a ch : Expand c (Elem q a ch) =
  a' <- expand_attributes c (definitions a) a [] ;;
  n <- ExpandQName c q (definitions a) true ;;
  ch' <- expand_all (Maps (definitions a) (inverse (definitions a)) :: c) ch ;;
  Ok (NElem (fst n) (snd n) a' (Maps (definitions a) (inverse (definitions a))) ch').
Proof.
  cbn [Expand]. cbv zeta. destruct (expand_attributes c (definitions a) a []) as [a'|]; [|reflexivity]. cbn [bind].
  destruct (ExpandQName c q (definitions a) true) as [n|]; [|reflexivity]. cbn [bind]. f_equal.
  induction ch as [|[s|e] ch IH]; [reflexivity| |]; cbn [expand_all]; [now rewrite IH|].
  destruct (Expand _ e); [|reflexivity]. cbn [bind]. now rewrite IH.
Qed.
(** The names in a legal scope whose namespaces are not "~" *)
Definition tilde_free (sc : list (list (str * str))) : Prop := forall p u, bound sc p u -> u <> lit "~".
Lemma raw_back sc d k n : tilde_free sc -> resolves sc d k n -> attribute_ns (fst (raw n)) = fst n.
Proof.
  intros T R. inversion R; subst; cbn [raw fst snd]; try reflexivity.
  - unfold attribute_ns. destruct (str_eqb u (lit "~")) eqn:E; [|reflexivity]. apply str_eqb_eq in E. match goal with H : bound sc _ u |- _ => now destruct (T _ _ H) end.
  - unfold attribute_ns. destruct (str_eqb u (lit "~")) eqn:E; [|reflexivity]. apply str_eqb_eq in E. match goal with H : bound sc _ u |- _ => now destruct (T _ _ H) end.
Qed.
Lemma attributes_back sc a xa : tilde_free sc -> attributes_mean sc a xa -> map meant (map raw_attr xa) = xa.
Proof.
  intros T H. induction H as [|k p v l x Hk H IH|k n v l x Hk R H IH]; [reflexivity|exact IH|]. cbn [map]. rewrite IH. f_equal.
  unfold meant, raw_attr. cbn [fst snd]. rewrite (raw_back _ _ _ _ T R). now destruct n.
Qed.
Lemma raw_keys sc a xa : tilde_free sc -> attributes_mean sc a xa -> NoDup (map fst xa) -> NoDup (map fst (map raw_attr xa)).
Proof.
  intros T H D. rewrite map_map. pose proof (attributes_back sc a xa T H) as E. rewrite <- E in D. rewrite !map_map in D.
  assert (G : forall l : list (xname * str), NoDup (map (fun x => fst (meant (raw_attr x))) l) -> NoDup (map (fun x => fst (raw_attr x)) l)).
  { induction l as [|x l IH]; intros N; [constructor|]. cbn [map] in N |- *. apply NoDup_cons_iff in N as [N1 N2]. constructor; [|auto].
    intros K. apply N1. apply in_map_iff in K as (y & E' & K). apply in_map_iff. exists y. split; [|exact K]. unfold meant, raw_attr in *. cbn [fst snd] in *. now rewrite E'. }
  now apply G.
Qed.
Lemma expand_means t : forall ws c x, means ws t x -> simple t -> agree ws c -> filled c -> tilde_free ws ->
  exists e, Expand c t = Ok e /\ expanded e = x.
Proof.
  induction t as [q a ch IH] using tree_induct. intros ws c x M S A F T.
  inversion M as [ws' q' n a' xa ch' xch Hk Hl Hr Ha Hd Hn]; subst. inversion S as [q' a' ch' Hq Hu Hb Hc]; subst.
  rewrite Expand_eq. set (ns := definitions a). set (m := Maps ns (inverse ns)).
  assert (A' : agree (a :: ws) (m :: c)) by now apply definitions_agree.
  assert (F' : filled (m :: c)).
  { intros m' p u [<-|K] E; [|now apply (F m' p u)]. cbn [m prefixToNS] in E. apply (definitions_lookup a Hk Hb) in E.
    apply (Hu _ p u) in E; [apply E|]. now apply declaration_eq. }
  assert (T' : tilde_free (a :: ws)).
  { intros p u B. inversion B; subst; [|now apply (T p u)]. match goal with H1 : XmlNsSpec.declaration _ _, H2 : In _ _ |- _ => now apply (Hu _ _ _ H1) in H2 end. }
  rewrite (expand_attributes_ok (a :: ws) c (inverse ns) ns A' F a xa Ha Hb []) by (cbn [app]; now apply (raw_keys (a :: ws) a)). cbn [bind app].
  destruct (expand_element (a :: ws) c (inverse ns) ns q n A' F' Hr Hq) as (u & -> & En). cbn [bind].
  assert (C : exists ch', expand_all (m :: c) ch = Ok ch' /\ map (on_elem expanded) ch' = xch).
  { clear -IH Hn Hc A' F' T'. induction Hn as [sc|sc s l y H IHl|sc e y l z M H IHl].
    - exists []. split; reflexivity.
    - destruct IHl as (ch' & E & <-); [intros e K; apply IH; now right|intros e K; apply Hc; now right|exact A'|exact T'|].
      exists (inl s :: ch'). cbn [expand_all]. rewrite E. split; reflexivity.
    - destruct IHl as (ch' & E & <-); [intros x K; apply IH; now right|intros x K; apply Hc; now right|exact A'|exact T'|].
      destruct (IH e (or_introl eq_refl) sc (m :: c) y M) as (e' & E' & <-); [apply Hc; now left|exact A'|exact F'|exact T'|].
      exists (inr e' :: ch'). cbn [expand_all]. rewrite E'. cbn [bind]. rewrite E. split; reflexivity. }
  destruct C as (ch' & -> & Ec). cbn [bind fst snd]. eexists. split; [reflexivity|]. rewrite expanded_eq, En, Ec, (attributes_back (a :: ws) a xa T' Ha).
  now destruct n.
Qed.
