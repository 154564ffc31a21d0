(** Theorems about namespaces in XML. *)
From Coq Require Import List ZArith Bool Lia Permutation.
From Verif Require Import Py XmlChars XmlDoc XmlOut XmlNs.
From Verif Require Import XmlCharsSpec XmlDocSpec XmlOutSpec XmlNsSpec XmlCharsProofs XmlDocProofs XmlDocProofs2 XmlDocProofs5.
From Verif Require Import XmlOutProofs XmlOutProofs2 XmlOutProofs3 XmlNsProofs XmlNsProofs2 XmlNsProofs3 XmlNsProofs4 XmlNsProofs5.
From Verif Require XmlDocProps XmlOutProps.
Open Scope Z_scope.
Open Scope list_scope.

(** ** Meaning is unique *)
Lemma bound_one ws p u u' : Forall (fun a => NoDup (map fst a)) ws -> bound ws p u -> bound ws p u' -> u = u'.
Proof.
  intros H B. revert u'. induction B as [a up k p u D I|a up p u N B IH]; intros u' B'; apply Forall_cons_iff in H as [Ha H].
  - inversion B' as [a' up' k' p' u2 D' I'|a' up' p' u2 N' B2]; subst.
    + apply declaration_eq in D, D'. subst. apply in_lookup in I, I'; [congruence|exact Ha..].
    + exfalso. apply (N' k D). now apply (in_map fst) in I.
  - inversion B' as [a' up' k' p' u2 D' I'|a' up' p' u2 N' B2]; subst.
    + exfalso. apply (N k' D'). now apply (in_map fst) in I'.
    + now apply IH.
Qed.
Lemma resolves_one sc d k n n' : Forall (fun a => NoDup (map fst a)) sc -> resolves sc d k n -> resolves sc d k n' -> n = n'.
Proof.
  intros H R R'.
  assert (X : forall p l, ncname p -> ncname l -> ~ ncname (p ++ lit ":" ++ l)).
  { intros p l _ _ [_ K]. apply K. apply in_app_iff. right. now left. }
  assert (C : forall p l p' l', ncname p -> ncname l -> ncname p' -> ncname l' -> p ++ lit ":" ++ l = p' ++ lit ":" ++ l' -> p = p' /\ l = l').
  { intros p l p' l' [_ A] _ [_ B] _ E. now apply colon_split in E. }
  pose proof (bmp_nc _ xml_ncname) as Nx.
  inversion R; subst; inversion R'; subst; try reflexivity;
    repeat match goal with
    | E : lit "xml:" ++ _ = lit "xml:" ++ _ |- _ => apply app_inv_head in E; subst
    | E : lit "xml:" ++ ?l = ?p ++ lit ":" ++ ?l' |- _ => change (lit "xml:" ++ l) with (lit "xml" ++ lit ":" ++ l) in E
    | E : ?p ++ lit ":" ++ ?l' = lit "xml:" ++ ?l |- _ => change (lit "xml:" ++ l) with (lit "xml" ++ lit ":" ++ l) in E
    | K : ncname (lit "xml:" ++ ?l) |- _ => change (lit "xml:" ++ l) with (lit "xml" ++ lit ":" ++ l) in K; exfalso; revert K; now apply X
    | K : ncname (?p ++ lit ":" ++ ?l) |- _ => exfalso; revert K; now apply X
    | E : ?p ++ lit ":" ++ ?l = ?p' ++ lit ":" ++ ?l' |- _ => apply C in E as [? ?]; [subst|assumption..]
    end; try congruence.
  - exfalso. match goal with E : ?p ++ 58 :: ?l0 = _ |- _ => change (p ++ lit ":" ++ l0 = lit "xml" ++ lit ":" ++ l) in E; apply C in E as [? _]; [contradiction|assumption..] end.
  - exfalso. match goal with E : _ = p ++ 58 :: l |- _ => change (lit "xml" ++ lit ":" ++ l0 = p ++ lit ":" ++ l) in E; apply C in E as [? _]; [congruence|assumption..] end.
  - match goal with E : ?p0 ++ 58 :: ?l0 = ?p ++ 58 :: ?l |- _ => change (p0 ++ lit ":" ++ l0 = p ++ lit ":" ++ l) in E; apply C in E as [? ?]; [subst|assumption..] end.
    f_equal. f_equal. eauto using bound_one.
  - f_equal. f_equal. eauto using bound_one.
  - match goal with B : bound _ _ _, K : forall u, bound _ _ u -> _ |- _ => apply K in B end. contradiction.
  - match goal with B : bound _ _ _, K : forall u, bound _ _ u -> _ |- _ => apply K in B end. contradiction.
Qed.
Lemma attributes_one sc a x x' : Forall (fun a => NoDup (map fst a)) sc -> attributes_mean sc a x -> attributes_mean sc a x' -> x = x'.
Proof.
  intros N H. revert x'. induction H as [|k p v l x Hk H IH|k n v l x Hk R H IH]; intros x' H'; inversion H'; subst; auto.
  - exfalso. match goal with K : forall p, ~ XmlNsSpec.declaration k p |- _ => now apply (K p) end.
  - exfalso. match goal with K : XmlNsSpec.declaration k ?p |- _ => now apply (Hk p) end.
  - f_equal; [f_equal; now apply (resolves_one sc false k)|auto].
Qed.
Theorem C198_one t : forall ws x x', Forall (fun a => NoDup (map fst a)) ws -> means ws t x -> means ws t x' -> x = x'.
Proof.
  induction t as [q a ch IH] using tree_induct. intros ws x x' N M M'.
  inversion M as [ws1 q1 n a1 xa ch1 xch Hk Hl Hr Ha Hd Hn]; subst. inversion M' as [ws1 q1 n' a1 xa' ch1 xch' Hk' Hl' Hr' Ha' Hd' Hn']; subst.
  assert (N' : Forall (fun a => NoDup (map fst a)) (a :: ws)) by (constructor; assumption).
  f_equal; [now apply (resolves_one (a :: ws) true q)|now apply (attributes_one (a :: ws) a)|].
  clear -IH N' Hn Hn'. revert xch' Hn'. induction Hn as [sc|sc s l y H IHl|sc e y l z M H IHl]; intros x' H'; inversion H'; subst; [reflexivity| |].
  - f_equal. apply IHl; auto. intros e K. apply IH. now right.
  - f_equal; [f_equal; apply (IH e (or_introl eq_refl) sc); assumption|]. apply IHl; auto. intros e' K. apply IH. now right.
Qed.

(** ** C197: what is written means the element *)
(** Full property: every element of names, namespaces and characters of XML is written as a document that means it,
    up to canonical form.
    Missing: an attribute in a namespace that elements have, and an element without namespace inside one that has a
    namespace; elements whose maps are set before. *)
Theorem C197_partial esc tab t : XmlOutProps.escaping esc -> proper t -> fresh t -> placed false t ->
  (forall u, attribute_in u t -> element_in u t -> u = xml_uri) ->
  exists s q x, GenerateNSDocument esc tab no_maps t = Ok s /\ well_formed s q /\ means [] q x /\ xcanonical false (expanded t) x.
Proof.
  intros He Hp Hf Hpl Hd. apply XmlOutProps.escaping_faithful in He.
  assert (O : all_ok [no_maps]) by (constructor; [apply no_maps_ok|constructor]).
  assert (Fi : fits [no_maps] t).
  { apply (fresh_fits (fun u => element_in u t) t Hp Hf) with (inside := false); auto; discriminate. }
  destruct (qualify_means t Hp true [no_maps] [] O Fi eq_refl) as (q & Q & M & Fa & _).
  exists (whole_text esc q), (canonq false q), (xcanon false (xsorted t)). split; [rewrite document_text, Q; reflexivity|]. split; [|split].
  - apply XmlDocProps.C190_plain_is_xml with (start := not_declared); [|now apply text_written].
    eapply Forall_impl; [|exact (whole_fine esc He q Fa)]. intros c K. apply K.
  - apply means_canon; [constructor|exact M].
  - now apply sorted_canonical.
Qed.

(** ** C198: names are read as they are meant *)
(** Full property: a document with names that mean something is read with those names.
    Missing: documents that are not [simple]. *)
Theorem C198_partial fuel s t x : Read fuel s = Ok t -> means [] t x -> simple t -> exists e, ReadNS fuel s = Ok e /\ expanded e = x.
Proof.
  intros R M S. unfold ReadNS. rewrite R. cbn [bind]. apply expand_means with []; auto.
  - intros p u. split; [intros B; inversion B|discriminate].
  - intros m p u [<-|[]]. discriminate.
  - intros p u B. inversion B.
Qed.

(** ** C199: what is written is read again *)
(** Full property and what is missing: as for C197 and C198. *)
Theorem C199_partial esc tab t : XmlOutProps.escaping esc -> proper t -> fresh t -> placed false t -> plainly t ->
  (forall u, attribute_in u t -> element_in u t -> u = xml_uri) ->
  exists s, GenerateNSDocument esc tab no_maps t = Ok s /\ forall fuel, (length s < fuel)%nat ->
    exists e, ReadNS fuel s = Ok e /\ xcanonical false (expanded t) (expanded e).
Proof.
  intros He Hp Hf Hpl Hpn Hd. apply XmlOutProps.escaping_faithful in He.
  assert (O : all_ok [no_maps]) by (constructor; [apply no_maps_ok|constructor]).
  assert (Fi : fits [no_maps] t).
  { apply (fresh_fits (fun u => element_in u t) t Hp Hf) with (inside := false); auto; discriminate. }
  destruct (qualify_means t Hp true [no_maps] [] O Fi eq_refl) as (q & Q & M & Fa & Si).
  exists (whole_text esc q). split; [rewrite document_text, Q; reflexivity|]. intros fuel Hfu.
  destruct (C198_partial fuel (whole_text esc q) (canonq false q) (xcanon false (xsorted t))) as (e & E & X).
  - apply (XmlDocProps.C190_partial (whole_text esc q)); [now apply text_written|now apply text_opened|exact Hfu].
  - apply means_canon; [constructor|exact M].
  - apply simple_canonq. now apply Si.
  - exists e. split; [exact E|]. rewrite X. now apply sorted_canonical.
Qed.

(** ** C200: what was read is written with the same meaning *)
(** Full property: a document with names that mean something is read, written and read again with the same meaning.
    Missing: documents that are not [simple], [usual] and [unambiguous]; tabs and line ends in values. *)
Theorem C200_partial esc tab fuel s t x : XmlOutProps.escaping esc -> Read fuel s = Ok t -> means [] t x ->
  simple t -> usual t -> fair t -> unambiguous [] t ->
  exists e s', ReadNS fuel s = Ok e /\ GenerateNSDocument esc tab no_maps e = Ok s' /\ forall fuel', (length s' < fuel')%nat ->
    exists e', ReadNS fuel' s' = Ok e' /\ xcanonical false x (expanded e').
Proof.
  intros He R M S U Fa Un. apply XmlOutProps.escaping_faithful in He.
  assert (O : all_ok [no_maps]) by (constructor; [apply no_maps_ok|constructor]).
  destruct (read_fits t [] [no_maps] x) as (e & E & X & Hp & Fi & Hpn); auto.
  - intros p u. split; [intros B; inversion B|discriminate].
  - intros m p u [<-|[]]. discriminate.
  - intros p u B. inversion B.
  - constructor; [discriminate|constructor].
  - destruct (qualify_means e Hp true [no_maps] [] O Fi eq_refl) as (q & Q & M' & Fa' & Si).
    exists e, (whole_text esc q). split; [unfold ReadNS; rewrite R; exact E|]. split; [rewrite document_text, Q; reflexivity|]. intros fuel' Hfu.
    destruct (C198_partial fuel' (whole_text esc q) (canonq false q) (xcanon false (xsorted e))) as (e' & E' & X').
    + apply (XmlDocProps.C190_partial (whole_text esc q)); [now apply text_written|now apply text_opened|exact Hfu].
    + apply means_canon; [constructor|exact M'].
    + apply simple_canonq. now apply Si.
    + exists e'. split; [exact E'|]. rewrite X', <- X. now apply sorted_canonical.
Qed.

(** ** C201: prefixes *)
(** Maps made by MakePrefix *)
Definition usable (p : str) : Prop := p = [] \/ (bmp_ncname p /\ p <> lit "xml" /\ ~ begins_with (lit "xmlns") p).
Inductive named : maps -> Prop :=
| na_new : named (Maps [] [])
| na_make m up u prefix m' p : named m -> namespace u -> u <> xml_uri -> (forall q, prefix = Some q -> usable q) ->
    MakePrefix m up u prefix = Ok (m', p) -> named m'.
Lemma new_loop_made c : forall f n p, 0 <= n -> new_loop f c n = Ok p -> exists k, n <= k /\ p = made k /\ GetNS c p = None /\
  forall j, n <= j < k -> GetNS c (made j) <> None.
Proof.
  intros f. induction f as [|f IH]; intros n p Hn; [discriminate|]. cbn [new_loop]. fold (made n).
  destruct (GetNS c (made n)) as [u|] eqn:E.
  - intros H. destruct (IH (n + 1) p ltac:(lia) H) as (k & Hk & G1 & G2 & G3). exists k. split; [lia|]. split; [exact G1|]. split; [exact G2|].
    intros j Hj. destruct (Z.eq_dec j n) as [->|]; [congruence|]. apply G3. lia.
  - intros [= <-]. exists n. split; [lia|]. split; [reflexivity|]. split; [exact E|]. intros j. lia.
Qed.
Lemma make_with m up u prefix m' p : MakePrefix m up u prefix = Ok (m', p) -> m' = with_prefix m p u /\ lookup p (prefixToNS m) = None /\
  match prefix with Some q => p = q | None => exists k, 1 <= k /\ p = made k /\ GetNS (m :: up) p = None end.
Proof.
  unfold MakePrefix. destruct prefix as [q|]; cbn [bind].
  - unfold has_prefix. destruct (lookup q (prefixToNS m)) eqn:E; [discriminate|]. intros [= <- <-]. auto.
  - destruct (NewPrefix (m :: up)) as [q|] eqn:N; [|discriminate]. cbn [bind]. unfold has_prefix. destruct (lookup q (prefixToNS m)) eqn:E; [discriminate|].
    intros [= <- <-]. split; [reflexivity|]. split; [exact E|]. apply new_loop_made in N as (k & K1 & K2 & K3 & _); [|lia]. exists k. auto.
Qed.
Lemma named_ok m : named m -> maps_ok m.
Proof.
  intros H. induction H as [|m up u prefix m' p H IH Hu Hx Hp E]; [apply no_maps_ok|]. apply make_with in E as (-> & E & G).
  apply with_prefix_ok; auto. destruct prefix as [q|]; [subst; now apply Hp|]. destruct G as (k & Hk & -> & _). apply made_ok. lia.
Qed.
Lemma all_named c : Forall named c -> all_ok c.
Proof. intros H. eapply Forall_impl; [|exact H]. apply named_ok. Qed.
Theorem C201_prefix c u p : Forall named c -> namespace u -> GetPrefix c (Some u) = Some p -> GetNS c p = Some u.
Proof.
  intros H Hu E. apply all_named in H. apply GetPrefix_sound in E as [[-> ->]|[N L]]; auto.
  rewrite GetNS_lookup; [exact L|exact H|]. intros ->. destruct (scope_ok _ _ _ H L) as ([K|(_ & K & _)] & _); [discriminate|congruence].
Qed.
Theorem C201_new c : Forall named c -> exists n, 1 <= n /\ NewPrefix c = Ok (lit "ns" ++ Iso.fmt n) /\ GetNS c (lit "ns" ++ Iso.fmt n) = None /\
  forall k, 1 <= k < n -> GetNS c (lit "ns" ++ Iso.fmt k) <> None.
Proof.
  intros H. apply all_named in H. destruct (NewPrefix_ok c H) as (p & E & _). pose proof E as E'. apply new_loop_made in E' as (k & K1 & -> & K3 & K4); [|lia].
  exists k. split; [exact K1|]. split; [exact E|]. split; [exact K3|exact K4].
Qed.
Theorem C201_make m up u prefix m' p : Forall named (m :: up) -> namespace u -> u <> xml_uri -> (forall q, prefix = Some q -> usable q) ->
  MakePrefix m up u prefix = Ok (m', p) ->
  GetPrefix (m' :: up) (Some u) = Some p /\ GetNS (m' :: up) p = Some u /\ (forall q, q <> p -> GetNS (m' :: up) q = GetNS (m :: up) q) /\
  match prefix with Some q => p = q | None => GetNS (m :: up) p = None end.
Proof.
  intros H Hu Hx Hp E. assert (N' : named m') by (apply Forall_cons_iff in H as [H _]; now apply (na_make m up u prefix m' p)).
  assert (H' : Forall named (m' :: up)) by (apply Forall_cons_iff in H as [_ H]; constructor; assumption).
  pose proof E as E'. apply make_with in E' as (-> & L & G).
  assert (P : GetPrefix (with_prefix m p u :: up) (Some u) = Some p).
  { unfold GetPrefix. change XML_NAMESPACE with xml_uri. rewrite (proj2 (Py.str_eqb_neq _ _) Hx). destruct Hu as (_ & _ & Ht & _).
    change NO_NAMESPACE with (lit "~"). rewrite (proj2 (Py.str_eqb_neq _ _) Ht). cbn [prefix_loop with_prefix nsToPrefix]. now rewrite lookup_set, str_eqb_refl. }
  split; [exact P|]. split; [now apply C201_prefix|]. split.
  - intros q Hq. unfold GetNS. destruct (str_eqb q (lit "xml")); [reflexivity|]. rewrite !ns_loop_lookup by (now apply all_named).
    rewrite scope_with. now rewrite (proj2 (Py.str_eqb_neq _ _) Hq).
  - destruct prefix as [q|]; [exact G|]. destruct G as (k & _ & _ & G). exact G.
Qed.
Theorem C201_refused m up u prefix : Forall named (m :: up) ->
  match MakePrefix m up u prefix with
  | Ok _ => forall p v, prefix = Some p -> ~ In (p, v) (prefixToNS m)
  | Err e => e = ValueError /\ exists p v, prefix = Some p /\ In (p, v) (prefixToNS m)
  end.
Proof.
  intros H. destruct prefix as [p|].
  - rewrite MakePrefix_given. unfold has_prefix. destruct (lookup p (prefixToNS m)) as [v|] eqn:E.
    + split; [reflexivity|]. exists p, v. split; [reflexivity|]. now apply lookup_in.
    + intros q v [= <-] K. apply lookup_none in E. apply E. now apply (in_map fst) in K.
  - destruct (MakePrefix_new m up u (all_named _ H)) as (p & -> & _). discriminate.
Qed.
Theorem C201_map c p : Forall named c -> p <> lit "xml" -> lookup p (GetPrefixMap c) = GetNS c p.
Proof. intros H Hp. apply all_named in H. rewrite complete_lookup. symmetry. now apply GetNS_lookup. Qed.

(** ** C202: a prefix is found *)
(** Full property: GetPrefix finds a prefix of a namespace whenever a prefix is bound to it.
    Missing: elements that have two prefixes for one namespace. *)
Theorem C202_partial c u p : Forall named c ->
  (forall m q q' v, In m c -> In (q, v) (prefixToNS m) -> In (q', v) (prefixToNS m) -> q = q') ->
  GetNS c p = Some u -> exists q, GetPrefix c (Some u) = Some q.
Proof.
  intros H D E.
  assert (B : forall m, named m -> forall q v, lookup q (prefixToNS m) = Some v -> lookup v (nsToPrefix m) <> None).
  { intros m N. induction N as [|m up w prefix m' q N IH Hu Hx Hp G]; intros q' v L; [discriminate|]. apply make_with in G as (-> & _ & _).
    cbn [with_prefix prefixToNS nsToPrefix] in *. rewrite lookup_set in L |- *. destruct (str_eqb v w) eqn:F; [discriminate|].
    destruct (str_eqb q' q); [injection L as ->; rewrite str_eqb_refl in F; discriminate|]. now apply (IH q' v). }
  assert (C : Forall complete c).
  { rewrite Forall_forall in *. intros m K q v L. specialize (H m K). pose proof (B m H q v L) as N. destruct (lookup v (nsToPrefix m)) as [q'|] eqn:L'; [|congruence].
    f_equal. apply (D m q' q v K); [|now apply lookup_in]. apply lookup_in. now apply (mo_back m (named_ok m H)). }
  destruct (str_eqb p (lit "xml")) eqn:Ex.
  - unfold GetNS in E. rewrite Ex in E. injection E as <-. exists (lit "xml"). reflexivity.
  - apply Py.str_eqb_neq in Ex. rewrite (GetNS_lookup c p (all_named c H) Ex) in E. pose proof (GetPrefix_complete c u p C E) as N.
    destruct (GetPrefix c (Some u)) as [q|]; [eauto|congruence].
Qed.

(** ** C203: names without colon *)
Theorem C203 n : IsValidNCName n = true <-> bmp_ncname n.
Proof.
  unfold bmp_ncname. rewrite bmp_name_iff. destruct n as [|c l]; [split; [discriminate|intros [H _]; exact H]|]. cbn [IsValidNCName IsValidName].
  destruct (IsNameStartChar c); cbn [negb orb andb]; [|split; [discriminate|intros [H _]; discriminate]].
  destruct (c =? 58) eqn:E.
  - apply Z.eqb_eq in E. subst. split; [discriminate|]. intros [_ H]. destruct H. now left.
  - apply Z.eqb_neq in E. rewrite !forallb_forall. split.
    + intros H. split; [intros x K; apply H in K; now apply andb_true_iff in K|]. intros [K|K]; [congruence|]. apply H in K. rewrite andb_false_r in K. discriminate.
    + intros [H1 H2] x K. rewrite (H1 x K). cbn. apply negb_true_iff, Z.eqb_neq. intros ->. apply H2. now right.
Qed.

(** ** Examples *)
Definition line_b (v : str) : bool := forallb (fun c => (32 <=? c) && (c <=? 126)) v.
Lemma line_by v : line_b v = true -> line v.
Proof.
  intros H. unfold line_b in H. rewrite forallb_forall in H. split; [apply Forall_forall; intros c K; apply H in K; unfold char; lia|].
  split; intros K; apply H in K; discriminate.
Qed.
Definition namespace_b (u : str) : bool :=
  line_b u && negb (str_eqb u []) && negb (str_eqb u (lit "~")) && negb (str_eqb u xmlns_uri).
Lemma namespace_by u : namespace_b u = true -> namespace u.
Proof.
  unfold namespace_b. rewrite !andb_true_iff, !negb_true_iff, !Py.str_eqb_neq. intros (((H1 & H2) & H3) & H4). split; [now apply line_by|]. now repeat split.
Qed.
Lemma ncname_by n : IsValidNCName n = true -> ncname n.
Proof. intros H. apply bmp_nc. now apply C203. Qed.
Fixpoint nodup_b (l : list (option str * str)) : bool :=
  match l with [] => true | x :: l' => negb (existsb (same_name x) l') && nodup_b l' end.
Lemma nodup_by l : nodup_b l = true -> NoDup l.
Proof.
  induction l as [|x l IH]; intros H; [constructor|]. cbn in H. apply andb_true_iff in H as [H1 H2]. constructor; [|auto].
  intros K. apply negb_true_iff in H1. apply Bool.not_true_iff_false in H1. apply H1. apply existsb_exists. exists x. split; [exact K|]. now apply same_name_eq.
Qed.
Fixpoint apart_b {E} (l : list (str + E)) : bool :=
  match l with
  | [] => true
  | inl s :: l' => negb (str_eqb s []) && match l' with inl _ :: _ => false | _ => true end && apart_b l'
  | inr _ :: l' => apart_b l'
  end.
Lemma apart_by {E} (l : list (str + E)) : apart_b l = true -> apart l.
Proof.
  enough (G : forall n (l : list (str + E)), (length l <= n)%nat -> apart_b l = true -> apart l) by eauto.
  induction n as [|n IH]; intros [|[s|e] m] L H; try (now constructor); try (cbn in L; lia); cbn in H, L.
  - apply andb_true_iff in H as [H H']. apply andb_true_iff in H as [H1 H2]. apply negb_true_iff, Py.str_eqb_neq in H1.
    destruct m as [|[s'|e] m]; [now constructor|discriminate|]. constructor; [exact H1|]. apply IH; [cbn in L; lia|exact H'].
  - constructor. apply IH; [lia|exact H].
Qed.
Section Each.
Variable f : option str -> str -> list ((option str * str) * str) -> maps -> list (str + nelem) -> bool.
Fixpoint each (t : nelem) : bool :=
  match t with
  | NElem ns n a m ch => f ns n a m ch && forallb (fun c => match c with inl _ => true | inr e => each e end) ch
  end.
Lemma each_by (P : option str -> str -> list ((option str * str) * str) -> maps -> list (str + nelem) -> Prop) t : (forall ns n a m ch, f ns n a m ch = true -> P ns n a m ch) -> each t = true -> throughout P t.
Proof.
  intros H. induction t as [ns n a m ch IH] using nelem_induct. cbn [each]. intros E. apply andb_true_iff in E as [E1 E2].
  constructor; [now apply H|]. intros e K. apply IH; [exact K|]. rewrite forallb_forall in E2. now apply (E2 _ K).
Qed.
End Each.
Definition proper_b : nelem -> bool := each (fun ns n a _ ch =>
  IsValidNCName n && (match element_ns ns with Some u => namespace_b u | None => true end) &&
  nodup_b (map (fun x => (attribute_ns (fst (fst x)), snd (fst x))) a) &&
  forallb (fun '((u, k), v) => IsValidNCName k && line_b v &&
    match attribute_ns u with Some w => namespace_b w | None => negb (str_eqb k (lit "xmlns")) end) a &&
  apart_b ch && forallb (fun c => match c with inl s => line_b s | inr _ => true end) ch).
Lemma proper_by t : proper_b t = true -> proper t.
Proof.
  apply each_by. intros ns n a m ch H. rewrite !andb_true_iff, !forallb_forall in H. destruct H as (((((H1 & H2) & H3) & H4) & H5) & H6).
  split; [now apply C203|]. split; [intros u E; rewrite E in H2; now apply namespace_by|]. split; [now apply nodup_by|]. split; [|split; [now apply apart_by|]].
  - intros u k v K. apply H4 in K. rewrite !andb_true_iff in K. destruct K as ((K1 & K2) & K3). split; [now apply C203|]. split; [now apply line_by|].
    split; [intros w E; rewrite E in K3; now apply namespace_by|]. intros E. rewrite E in K3. now apply negb_true_iff, Py.str_eqb_neq in K3.
  - intros s K. apply H6 in K. now apply line_by in K as [K _].
Qed.
Fixpoint elements_ns (t : nelem) : list str :=
  match t with
  | NElem ns _ _ _ ch => (match ns with Some u => [u] | None => [] end) ++ flat_map (fun c => match c with inl _ => [] | inr e => elements_ns e end) ch
  end.
Fixpoint attributes_ns (t : nelem) : list str :=
  match t with
  | NElem _ _ a _ ch => flat_map (fun x => match fst (fst x) with Some u => [u] | None => [] end) a ++
      flat_map (fun c => match c with inl _ => [] | inr e => attributes_ns e end) ch
  end.
Lemma elements_in u t : element_in u t -> In u (elements_ns t).
Proof.
  intros H. induction H as [n a m ch|ns n a m ch e K H IH]; cbn [elements_ns]; apply in_app_iff; [left; now left|right].
  apply in_flat_map. exists (inr e). auto.
Qed.
Lemma attributes_in u t : attribute_in u t -> In u (attributes_ns t).
Proof.
  intros H. induction H as [ns n a m ch k v K|ns n a m ch e K H IH]; cbn [attributes_ns]; apply in_app_iff; [left|right]; apply in_flat_map.
  - exists ((Some u, k), v). split; [exact K|now left].
  - exists (inr e). auto.
Qed.
Lemma separate_by t : forallb (fun u => str_eqb u xml_uri || negb (existsb (str_eqb u) (elements_ns t))) (attributes_ns t) = true ->
  forall u, attribute_in u t -> element_in u t -> u = xml_uri.
Proof.
  intros H u A E. apply attributes_in in A. apply elements_in in E. rewrite forallb_forall in H. apply H in A. apply orb_true_iff in A as [A|A]; [now apply str_eqb_eq|].
  exfalso. apply negb_true_iff in A. apply Bool.not_true_iff_false in A. apply A. apply existsb_exists. exists u. split; [exact E|apply str_eqb_refl].
Qed.
Definition sample : nelem := NElem (Some (lit "urn:a")) (lit "x") [((Some (lit "urn:b"), lit "k"), lit "1"); ((None, lit "j"), lit "a<b")] (Maps [] [])
  [inl (lit " t "); inr (NElem (Some (lit "urn:c")) (lit "y") [((Some xml_uri, lit "lang"), lit "en")] (Maps [] []) [inr (NElem (Some (lit "urn:a")) (lit "z") [] (Maps [] []) [])])].
Example C199_nonvacuous : proper sample /\ fresh sample /\ placed false sample /\ plainly sample /\
  (forall u, attribute_in u sample -> element_in u sample -> u = xml_uri) /\
  GenerateNSDocument EscapeCharData false no_maps sample = Ok (lit "<?xml version=""1.0"" encoding=""UTF-8""?>" ++ [10] ++
    lit "<x xmlns=""urn:a"" xmlns:ns1=""urn:b"" j=""a&lt;b"" ns1:k=""1"">t <y xmlns=""urn:c"" xml:lang=""en""><z xmlns=""urn:a""/></y></x>").
Proof.
  split; [apply proper_by; vm_compute; reflexivity|]. split; [repeat (constructor; [reflexivity|]; intros e K; repeat (destruct K as [K|K]; [try discriminate; injection K as <-|]); try contradiction)|].
  split; [repeat (constructor; [discriminate|]; intros e K; repeat (destruct K as [K|K]; [try discriminate; injection K as <-|]); try contradiction)|].
  split; [|split; [|vm_compute; reflexivity]].
  - assert (P : forall k, negb (XmlNs.begins_xmlns k) = true -> ~ begins_with (lit "xmlns") k).
    { intros k H K. apply begins_iff in K. rewrite K in H. discriminate. }
    apply (each_by (fun _ n a _ _ => negb (str_eqb n (lit "xmlns")) && forallb (fun x => negb (XmlNs.begins_xmlns (snd (fst x)))) a)); [|vm_compute; reflexivity].
    intros ns n a m ch H. apply andb_true_iff in H as [H1 H2]. split; [now apply negb_true_iff, Py.str_eqb_neq in H1|].
    intros u k v K _. rewrite forallb_forall in H2. apply H2 in K. now apply P.
  - apply separate_by. vm_compute. reflexivity.
Qed.

(** Documents *)
Fixpoint fair_b (t : tree) : bool :=
  match t with
  | Elem n a ch => IsValidName n && nodup_b (map (fun x => (None, fst x)) a) && forallb (fun '(k, v) => IsValidName k && line_b v) a &&
      apart_b ch && forallb (fun c => match c with inl s => line_b s | inr e => fair_b e end) ch
  end.
Lemma apart_sep l : @apart tree l -> separate l.
Proof. induction 1; now constructor. Qed.
Lemma fair_by t : fair_b t = true -> fair t.
Proof.
  induction t as [n a ch IH] using tree_induct. cbn [fair_b]. rewrite !andb_true_iff, !forallb_forall. intros ((((H1 & H2) & H3) & H4) & H5).
  constructor; [now apply bmp_name_iff| | |now apply apart_sep, apart_by| |].
  - apply nodup_by in H2. unfold dictionary. rewrite <- (map_map fst (fun k => (@None str, k))) in H2. now apply NoDup_map_inv in H2.
  - intros k v K. apply H3 in K. apply andb_true_iff in K as [K1 K2]. split; [now apply bmp_name_iff|now apply line_by].
  - intros s K. apply H5 in K. now apply line_by in K as [K _].
  - intros e K. apply IH; [exact K|]. now apply (H5 _ K).
Qed.
Definition legal_b (a : list (str * str)) : bool := forallb (fun '(k, u) =>
  negb (str_eqb u xmlns_uri) && negb (str_eqb u xml_uri) &&
  (negb (str_eqb (firstn 6 k) (lit "xmlns:")) || (IsValidNCName (skipn 6 k) && negb (str_eqb (skipn 6 k) (lit "xml")) && negb (str_eqb (skipn 6 k) (lit "xmlns")) && negb (str_eqb u [])))) a.
Lemma legal_by a : legal_b a = true -> legal a.
Proof.
  unfold legal_b. rewrite forallb_forall. intros H k p u D K. apply H in K. rewrite !andb_true_iff, !negb_true_iff, !Py.str_eqb_neq in K.
  destruct K as ((K1 & K2) & K3). destruct D as [[-> ->]|[-> Hp]].
  - split; [discriminate|]. split; [exact K1|]. split; [split; [discriminate|contradiction]|congruence].
  - change (skipn 6 (lit "xmlns:" ++ p)) with p in K3. change (firstn 6 (lit "xmlns:" ++ p)) with (lit "xmlns:") in K3. rewrite str_eqb_refl in K3.
    cbn [negb orb] in K3. rewrite !andb_true_iff, !negb_true_iff, !Py.str_eqb_neq in K3. destruct K3 as (((G1 & G2) & G3) & G4).
    split; [exact G3|]. split; [exact K1|]. split; [split; contradiction|]. intros _. split; [now apply ncname_by|exact G4].
Qed.
Definition declares_b (a : list (str * str)) : bool := forallb (fun '(k, _) => negb (XmlNs.begins_xmlns k) || declares k && negb (str_eqb k (lit "xmlns:"))) a.
Lemma declares_by a : declares_b a = true -> only_declares a.
Proof.
  unfold declares_b. rewrite forallb_forall. intros H k u K B. apply H in K. apply begins_iff in B. rewrite B in K. cbn [negb orb] in K.
  apply andb_true_iff in K as [K1 K2]. apply negb_true_iff, Py.str_eqb_neq in K2. unfold declares in K1. apply orb_true_iff in K1 as [K1|K1].
  - apply str_eqb_eq in K1. exists []. now left.
  - apply str_eqb_eq in K1. exists (skipn 6 k). right. rewrite <- K1, firstn_skipn. split; [reflexivity|]. intros E.
    apply K2. rewrite <- (firstn_skipn 6 k), E, K1. apply app_nil_r.
Qed.
Lemma agree_nil : agree [] [no_maps].
Proof. intros p u. split; [intros B; inversion B|discriminate]. Qed.
Lemma agree_next a ws c : agree ws c -> NoDup (map fst a) -> declares_b a = true -> agree (a :: ws) (Maps (definitions a) [] :: c).
Proof. intros A N D. apply definitions_agree; [exact N|now apply declares_by|exact A]. Qed.
(** A meaning found by looking names up *)
Lemma found_element ws c q u l : agree ws c -> Imscp.split_on 58 q = [l] -> q = l -> IsValidNCName l = true -> lookup [] (scope_of c) = Some u -> u <> [] ->
  resolves ws true q (Some u, l).
Proof. intros A _ -> N L U. apply re_default; [now apply ncname_by|now apply A|exact U]. Qed.
Lemma found_none ws c q : agree ws c -> IsValidNCName q = true -> match lookup [] (scope_of c) with Some (_ :: _) => False | _ => True end -> resolves ws true q (None, q).
Proof. intros A N L. apply re_none; [now apply ncname_by|]. intros u B. apply A in B. rewrite B in L. destruct u; [reflexivity|contradiction]. Qed.
Lemma found_prefix ws c d p l u : agree ws c -> IsValidNCName p = true -> IsValidNCName l = true -> p <> lit "xml" -> p <> lit "xmlns" ->
  lookup p (scope_of c) = Some u -> u <> [] -> resolves ws d (p ++ lit ":" ++ l) (Some u, l).
Proof. intros A N N' H H' L U. apply re_prefix; auto using ncname_by. now apply A. Qed.
Lemma keys_by a : nodup_b (map (fun x : str * str => (None, fst x)) a) = true -> NoDup (map fst a).
Proof. intros H. apply nodup_by in H. rewrite <- (map_map fst (fun k => (@None str, k))) in H. now apply NoDup_map_inv in H. Qed.
Lemma not_declared_by k : declares k = false -> forall p, ~ XmlNsSpec.declaration k p.
Proof. intros H p [[-> _]|[-> _]]; discriminate H. Qed.
(** The meaning of a tree, for the examples: sound, by the lemmas above *)
Definition resolve (c : context) (d : bool) (q : str) : option xname :=
  match Imscp.split_on 58 q with
  | [l] => if negb (IsValidNCName l) then None else if d then match lookup [] (scope_of c) with Some (x :: u) => Some (Some (x :: u), l) | _ => Some (None, l) end else Some (None, l)
  | [p; l] => if negb (IsValidNCName p && IsValidNCName l) then None
      else if str_eqb p (lit "xml") then Some (Some xml_uri, l)
      else if str_eqb p (lit "xmlns") then None
      else match lookup p (scope_of c) with Some (x :: u) => Some (Some (x :: u), l) | _ => None end
  | _ => None
  end.
Lemma resolve_sound ws c d q n : agree ws c -> resolve c d q = Some n -> resolves ws d q n.
Proof.
  intros A. unfold resolve. pose proof (ImscpProofs.join_split 58 q) as J. destruct (Imscp.split_on 58 q) as [|p [|l [|]]]; try discriminate.
  - cbn in J. subst p. destruct (IsValidNCName q) eqn:N; [|discriminate]. cbn [negb]. destruct d.
    + destruct (lookup [] (scope_of c)) as [[|x u]|] eqn:L; intros [= <-]; [apply (found_none ws c)|apply (found_element ws c)|apply (found_none ws c)]; auto; try (now rewrite L); try discriminate.
      apply split_one. now apply ncname_by in N as [_ N].
    + intros [= <-]. apply re_attribute. now apply ncname_by.
  - assert (E : q = p ++ lit ":" ++ l) by (rewrite <- J; reflexivity). subst q. destruct (IsValidNCName p) eqn:N; [|discriminate]. destruct (IsValidNCName l) eqn:N'; [|discriminate].
    cbn [andb negb]. destruct (str_eqb p (lit "xml")) eqn:E1.
    + apply str_eqb_eq in E1. subst. intros [= <-]. apply (re_xml ws d l). now apply ncname_by.
    + destruct (str_eqb p (lit "xmlns")) eqn:E2; [discriminate|]. apply Py.str_eqb_neq in E1, E2.
      destruct (lookup p (scope_of c)) as [[|x u]|] eqn:L; try discriminate. intros [= <-]. now apply (found_prefix ws c).
Qed.
Fixpoint resolve_attributes (c : context) (a : list (str * str)) : option (list (xname * str)) :=
  match a with
  | [] => Some []
  | (k, v) :: l =>
      if declares k && negb (str_eqb k (lit "xmlns:")) then resolve_attributes c l
      else if declares k then None
      else match resolve c false k, resolve_attributes c l with Some n, Some x => Some ((n, v) :: x) | _, _ => None end
  end.
Lemma resolve_attributes_sound ws c a : agree ws c -> forall x, resolve_attributes c a = Some x -> attributes_mean ws a x.
Proof.
  intros A. induction a as [|[k v] a IH]; intros x H; [injection H as <-; constructor|]. cbn [resolve_attributes] in H.
  destruct (declares k && negb (str_eqb k (lit "xmlns:"))) eqn:E.
  - apply andb_true_iff in E as [E1 E2]. apply negb_true_iff, Py.str_eqb_neq in E2.
    assert (D : exists p, XmlNsSpec.declaration k p).
    { unfold declares in E1. apply orb_true_iff in E1 as [K1|K1]; apply str_eqb_eq in K1.
      - exists []. now left.
      - exists (skipn 6 k). right. rewrite <- K1, firstn_skipn. split; [reflexivity|]. intros E. apply E2. rewrite <- (firstn_skipn 6 k), E, K1. apply app_nil_r. }
    destruct D as (p & D). apply am_declaration with p; auto.
  - destruct (declares k) eqn:D; [discriminate|]. destruct (resolve c false k) as [n|] eqn:R; [|discriminate].
    destruct (resolve_attributes c a) as [y|]; [|discriminate]. injection H as <-. apply am_attribute; auto; [now apply not_declared_by|]. now apply (resolve_sound ws c).
Qed.
Fixpoint meaning (c : context) (t : tree) : option xtree :=
  match t with
  | Elem q a ch =>
      if nodup_b (map (fun x : str * str => (None, fst x)) a) && legal_b a && declares_b a then
        let c' := Maps (definitions a) [] :: c in
        match resolve c' true q, resolve_attributes c' a,
          (fix all l := match l with
                        | [] => Some []
                        | inl s :: l' => match all l' with Some y => Some (inl s :: y) | None => None end
                        | inr e :: l' => match meaning c' e, all l' with Some x, Some y => Some (inr x :: y) | _, _ => None end
                        end) ch with
        | Some n, Some xa, Some y => if nodup_b (map fst xa) then Some (XElem n xa y) else None
        | _, _, _ => None
        end
      else None
  end.
Lemma meaning_sound t : forall ws c x, agree ws c -> meaning c t = Some x -> means ws t x.
Proof.
  induction t as [q a ch IH] using tree_induct. intros ws c x A H. cbn [meaning] in H.
  destruct (nodup_b _ && legal_b a && declares_b a) eqn:E; [|discriminate]. apply andb_true_iff in E as [E E3]. apply andb_true_iff in E as [E1 E2]. apply keys_by in E1.
  pose proof (agree_next a ws c A E1 E3) as A'. cbv zeta in H.
  destruct (resolve _ true q) as [n|] eqn:R; [|discriminate]. destruct (resolve_attributes _ a) as [xa|] eqn:Ra; [|discriminate].
  match type of H with match ?e with _ => _ end = _ => destruct e as [y|] eqn:Y end; [|discriminate].
  destruct (nodup_b (map fst xa)) eqn:D; [|discriminate]. injection H as <-. apply nodup_by in D.
  apply me_elem; auto; [now apply legal_by|now apply (resolve_sound _ _ _ _ _ A')|now apply (resolve_attributes_sound _ _ _ A')|].
  clear -IH A' Y. revert y Y. induction ch as [|[s|e] ch IHl]; intros y Y.
  - injection Y as <-. constructor.
  - match type of Y with match ?e with _ => _ end = _ => destruct e as [z|] eqn:Z end; [|discriminate]. injection Y as <-. constructor. apply IHl; [|reflexivity || exact Z].
    intros e K. apply IH. now right.
  - destruct (meaning _ e) as [x|] eqn:X; [|discriminate]. match type of Y with match ?e with _ => _ end = _ => destruct e as [z|] eqn:Z end; [|discriminate]. injection Y as <-.
    constructor; [apply (IH e (or_introl eq_refl) _ _ _ A' X)|]. apply IHl; [|reflexivity || exact Z]. intros e' K. apply IH. now right.
Qed.

(** ** What is missing *)
(** An attribute in the namespace of its element is written without prefix, and is then in no namespace. *)
Definition own_namespace : nelem := NElem (Some (lit "urn:a")) (lit "x") [((Some (lit "urn:a"), lit "k"), lit "1")] (Maps [] []) [].
(** An element without namespace inside an element with one is written without "xmlns=''". *)
Definition inside_default : nelem := NElem (Some (lit "urn:a")) (lit "x") [] (Maps [] []) [inr (NElem None (lit "y") [] (Maps [] []) [])].
Lemma written_as esc tab t q : XmlOutProps.escaping esc -> Qualify true [no_maps] t = Ok q -> fair q ->
  GenerateNSDocument esc tab no_maps t = Ok (whole_text esc q) /\ well_formed (whole_text esc q) (canonq false q) /\
  forall fuel, (length (whole_text esc q) < fuel)%nat -> ReadNS fuel (whole_text esc q) = Expand [no_maps] (canonq false q).
Proof.
  intros He Q Fa. apply XmlOutProps.escaping_faithful in He. split; [rewrite document_text, Q; reflexivity|]. split.
  - apply XmlDocProps.C190_plain_is_xml with (start := not_declared); [|now apply text_written].
    eapply Forall_impl; [|exact (whole_fine esc He q Fa)]. intros c K. apply K.
  - intros fuel Hf. unfold ReadNS. rewrite (XmlDocProps.C190_partial (whole_text esc q) _ (canonq false q)); auto; [now apply text_written|now apply text_opened].
Qed.
Lemma fresh_by t : each (fun _ _ _ m _ => match m with Maps [] [] => true | _ => false end) t = true -> fresh t.
Proof. apply each_by. intros _ _ _ [[|] [|]] _; try discriminate. reflexivity. Qed.
Definition means_other (t : nelem) : Prop := forall esc tab, XmlOutProps.escaping esc -> exists s q x,
  GenerateNSDocument esc tab no_maps t = Ok s /\ well_formed s q /\ means [] q x /\ ~ xcanonical false (expanded t) x /\
  forall fuel, (length s < fuel)%nat -> exists e, ReadNS fuel s = Ok e /\ ~ xcanonical false (expanded t) (expanded e).
Theorem C197_refuted : 
  (proper own_namespace /\ fresh own_namespace /\ placed false own_namespace /\ plainly own_namespace /\ means_other own_namespace) /\
  (proper inside_default /\ fresh inside_default /\ plainly inside_default /\
   (forall u, attribute_in u inside_default -> element_in u inside_default -> u = xml_uri) /\ means_other inside_default).
Proof.
  assert (P : forall t, each (fun _ n a _ _ => negb (str_eqb n (lit "xmlns")) && forallb (fun x => negb (XmlNs.begins_xmlns (snd (fst x)))) a) t = true -> plainly t).
  { intros t. apply each_by. intros ns n a m ch H. apply andb_true_iff in H as [H1 H2]. split; [now apply negb_true_iff, Py.str_eqb_neq in H1|].
    intros u k v K _ B. rewrite forallb_forall in H2. apply H2 in K. apply begins_iff in B. cbn [fst snd] in K. rewrite B in K. discriminate. }
  split.
  - split; [apply proper_by; vm_compute; reflexivity|]. split; [apply fresh_by; reflexivity|]. split; [constructor; [discriminate|intros e []]|].
    split; [apply P; vm_compute; reflexivity|]. intros esc tab He.
    destruct (written_as esc tab own_namespace (Elem (lit "x") [(lit "xmlns", lit "urn:a"); (lit "k", lit "1")] []) He) as (W1 & W2 & W3);
      [vm_compute; reflexivity|apply fair_by; vm_compute; reflexivity|].
    assert (N : ~ xcanonical false (expanded own_namespace) (XElem (Some (lit "urn:a"), lit "x") [((None, lit "k"), lit "1")] [])).
    { intros K. inversion K; subst. match goal with Pm : Permutation _ _ |- _ => apply Permutation_length_1 in Pm; discriminate Pm end. }
    exists (whole_text esc (Elem (lit "x") [(lit "xmlns", lit "urn:a"); (lit "k", lit "1")] [])). eexists. eexists.
    split; [exact W1|]. split; [exact W2|]. split; [apply (meaning_sound _ _ _ _ agree_nil); vm_compute; reflexivity|]. split; [exact N|].
    intros fuel Hf. rewrite (W3 fuel Hf). eexists. split; [vm_compute; reflexivity|exact N].
  - split; [apply proper_by; vm_compute; reflexivity|]. split; [apply fresh_by; reflexivity|]. split; [apply P; vm_compute; reflexivity|].
    split; [apply separate_by; vm_compute; reflexivity|]. intros esc tab He.
    destruct (written_as esc tab inside_default (Elem (lit "x") [(lit "xmlns", lit "urn:a")] [inr (Elem (lit "y") [] [])]) He) as (W1 & W2 & W3);
      [vm_compute; reflexivity|apply fair_by; vm_compute; reflexivity|].
    assert (N : ~ xcanonical false (expanded inside_default) (XElem (Some (lit "urn:a"), lit "x") [] [inr (XElem (Some (lit "urn:a"), lit "y") [] [])])).
    { intros K. inversion K as [? ? ? ? ? ? p X Y C]; subst. destruct p; inversion C as [| |? ? ? ? ? C1 C2]; subst; inversion C1. }
    exists (whole_text esc (Elem (lit "x") [(lit "xmlns", lit "urn:a")] [inr (Elem (lit "y") [] [])])). eexists. eexists.
    split; [exact W1|]. split; [exact W2|]. split; [apply (meaning_sound _ _ _ _ agree_nil); vm_compute; reflexivity|]. split; [exact N|].
    intros fuel Hf. rewrite (W3 fuel Hf). eexists. split; [vm_compute; reflexivity|exact N].
Qed.

Definition good_document : str := lit "<a:x xmlns:a='urn:a' xmlns='urn:b' a:k='1' j='2' xml:lang='en'><y><z xmlns='urn:c'/></y> t </a:x>".
Definition good_tree : tree := Elem (lit "a:x") [(lit "xmlns:a", lit "urn:a"); (lit "xmlns", lit "urn:b"); (lit "a:k", lit "1"); (lit "j", lit "2"); (lit "xml:lang", lit "en")]
  [inr (Elem (lit "y") [] [inr (Elem (lit "z") [(lit "xmlns", lit "urn:c")] [])]); inl (lit " t ")].
Definition good_meaning : xtree := XElem (Some (lit "urn:a"), lit "x") [((Some (lit "urn:a"), lit "k"), lit "1"); ((None, lit "j"), lit "2"); ((Some xml_uri, lit "lang"), lit "en")]
  [inr (XElem (Some (lit "urn:b"), lit "y") [] [inr (XElem (Some (lit "urn:c"), lit "z") [] [])]); inl (lit " t ")].
Fixpoint simple_b (t : tree) : bool :=
  match t with
  | Elem q a ch => negb (str_eqb q (lit "xmlns")) && forallb (fun '(k, u) => negb (declares k) || (negb (str_eqb u []) && negb (str_eqb u (lit "~")))) a &&
      declares_b a && forallb (fun c => match c with inl _ => true | inr e => simple_b e end) ch
  end.
Lemma declares_iff k p : XmlNsSpec.declaration k p -> declares k = true.
Proof. intros [[-> _]|[-> _]]; reflexivity. Qed.
Lemma simple_by t : simple_b t = true -> simple t.
Proof.
  induction t as [q a ch IH] using tree_induct. cbn [simple_b]. rewrite !andb_true_iff, !forallb_forall. intros (((H1 & H2) & H3) & H4).
  constructor; [now apply negb_true_iff, Py.str_eqb_neq in H1| |now apply declares_by|intros e K; apply IH; [exact K|now apply (H4 _ K)]].
  intros k p u D K. apply H2 in K. rewrite (declares_iff k p D) in K. cbn [negb orb] in K. now rewrite andb_true_iff, !negb_true_iff, !Py.str_eqb_neq in K.
Qed.
Fixpoint usual_b (t : tree) : bool :=
  match t with
  | Elem q a ch => negb (str_eqb (rev (firstn 6 (rev q))) (lit ":xmlns")) && forallb (fun '(k, u) => negb (declares k) || negb (str_eqb (skipn 6 k) (lit "xml")) && negb (XmlNs.begins_xmlns (skipn 6 k))) a &&
      forallb (fun c => match c with inl _ => true | inr e => usual_b e end) ch
  end.
Lemma usual_by t : usual_b t = true -> usual t.
Proof.
  induction t as [q a ch IH] using tree_induct. cbn [usual_b]. rewrite !andb_true_iff, !forallb_forall. intros ((H1 & H2) & H3).
  constructor; [| |intros e K; apply IH; [exact K|now apply (H3 _ K)]].
  - intros p ->. apply negb_true_iff, Py.str_eqb_neq in H1. apply H1. rewrite rev_app_distr. reflexivity.
  - intros k p u D K. apply H2 in K. rewrite (declares_iff k p D) in K. cbn [negb orb] in K. rewrite andb_true_iff, !negb_true_iff, !Py.str_eqb_neq in K.
    destruct K as [K1 K2]. destruct D as [[-> ->]|[-> _]].
    + split; [discriminate|]. intros (r & E). discriminate E.
    + change (skipn 6 (lit "xmlns:" ++ p)) with p in K1, K2. split; [exact K1|]. intros B. apply begins_iff in B. congruence.
Qed.
(** For the examples: no two prefixes at all have the same namespace. *)
Fixpoint unambiguous_b (c : context) (t : tree) : bool :=
  match t with
  | Elem q a ch => let c' := Maps (definitions a) [] :: c in
      nodup_b (map (fun x : str * str => (None, fst x)) a) && declares_b a && nodup_b (map (fun x => (None, snd x)) (definitions a)) &&
      forallb (fun '(k, _) => match Imscp.split_on 58 k with
        | [p; _] => match lookup p (scope_of c'), lookup [] (scope_of c') with Some u, Some v => negb (str_eqb u v) | _, _ => true end
        | [_] => true
        | _ => false end) a &&
      forallb (fun x => match x with inl _ => true | inr e => unambiguous_b c' e end) ch
  end.
Lemma nodup_snd (d : list (str * str)) k k' u : NoDup (map snd d) -> In (k, u) d -> In (k', u) d -> k = k'.
Proof.
  induction d as [|[q v] d IH]; intros N K K'; [destruct K|]. cbn in N. apply NoDup_cons_iff in N as [N1 N2].
  destruct K as [K|K], K' as [K'|K']; [congruence| | |now apply IH].
  - injection K as -> ->. destruct N1. now apply (in_map snd) in K'.
  - injection K' as -> ->. destruct N1. now apply (in_map snd) in K.
Qed.
Lemma unambiguous_by t : forall ws c, agree ws c -> unambiguous_b c t = true -> unambiguous ws t.
Proof.
  induction t as [q a ch IH] using tree_induct. intros ws c A H. cbn [unambiguous_b] in H. cbv zeta in H. rewrite !andb_true_iff, !forallb_forall in H.
  destruct H as ((((H1 & H2) & H3) & H4) & H5). apply keys_by in H1. pose proof (agree_next a ws c A H1 H2) as A'.
  apply nodup_by in H3. rewrite <- (map_map snd (fun u => (@None str, u))) in H3. apply NoDup_map_inv in H3.
  constructor.
  - intros k p k' p' u D D' K K'. apply declaration_eq in D, D'. subst. apply (definitions_lookup a H1 (declares_by a H2)) in K, K'.
    apply lookup_in in K, K'. f_equal. now apply (nodup_snd (definitions a) p p' u).
  - intros p l v u K Np B B0. apply A' in B, B0. apply H4 in K. pose proof (ImscpProofs.split_app_no 58 p l (proj2 Np)) as S.
    change (p ++ lit ":" ++ l) with (p ++ 58 :: l) in K. rewrite S in K. destruct (Imscp.split_on 58 l) as [|x [|]] eqn:Sl.
    + destruct (ImscpProofs.split_on_cons 58 l) as (? & ? & E). congruence.
    + rewrite B, B0, str_eqb_refl in K. discriminate.
    + discriminate.
  - intros e K. apply (IH e K (a :: ws) (Maps (definitions a) [] :: c) A'). now apply (H5 _ K).
Qed.
Example C198_nonvacuous : Read 200 good_document = Ok good_tree /\ means [] good_tree good_meaning /\ simple good_tree.
Proof. split; [vm_compute; reflexivity|]. split; [apply (meaning_sound _ _ _ _ agree_nil); vm_compute; reflexivity|apply simple_by; vm_compute; reflexivity]. Qed.
Example C200_nonvacuous : usual good_tree /\ fair good_tree /\ unambiguous [] good_tree /\
  (e <- ReadNS 200 good_document ;; GenerateNSDocument EscapeCharData false no_maps e) = Ok (lit "<?xml version=""1.0"" encoding=""UTF-8""?>" ++ [10] ++
    lit "<a:x xmlns=""urn:b"" xmlns:a=""urn:a"" xml:lang=""en"" a:k=""1"" j=""2""><y><z xmlns=""urn:c""/></y> t</a:x>").
Proof.
  split; [apply usual_by; vm_compute; reflexivity|]. split; [apply fair_by; vm_compute; reflexivity|].
  split; [apply (unambiguous_by _ _ _ agree_nil); vm_compute; reflexivity|vm_compute; reflexivity].
Qed.

(** "xmlns=''" is forgotten by the elements inside; an attribute whose name begins with "xmlns" is lost; an element of
    the name "xmlns" is read with another name; the namespace "~" is lost. *)
Definition misread (s : str) : Prop := exists t x e, Read 200 s = Ok t /\ means [] t x /\ ReadNS 200 s = Ok e /\ expanded e <> x.
Lemma misread_by s t x e : Read 200 s = Ok t -> meaning [no_maps] t = Some x -> ReadNS 200 s = Ok e -> expanded e <> x -> misread s.
Proof. intros R M E N. exists t, x, e. split; [exact R|]. split; [now apply (meaning_sound _ _ _ _ agree_nil)|]. now split. Qed.
Theorem C198_refuted :
  misread (lit "<a xmlns='urn:a'><b xmlns=''><c/></b></a>") /\
  misread (lit "<xmlns/>") /\
  misread (lit "<a xmlns:p='~' p:b='1'/>") /\
  (exists t e, Read 200 (lit "<a xmlnsb='1'/>") = Ok t /\ means [] t (XElem (None, lit "a") [((None, lit "xmlnsb"), lit "1")] []) /\
     ReadNS 200 (lit "<a xmlnsb='1'/>") = Ok e /\ expanded e = XElem (None, lit "a") [] []).
Proof.
  split; [|split; [|split]].
  - eapply misread_by; [vm_compute; reflexivity|vm_compute; reflexivity|vm_compute; reflexivity|vm_compute; discriminate].
  - eapply misread_by; [vm_compute; reflexivity|vm_compute; reflexivity|vm_compute; reflexivity|vm_compute; discriminate].
  - eapply misread_by; [vm_compute; reflexivity|vm_compute; reflexivity|vm_compute; reflexivity|vm_compute; discriminate].
  - exists (Elem (lit "a") [(lit "xmlnsb", lit "1")] []). eexists. split; [vm_compute; reflexivity|]. split; [|split; [vm_compute; reflexivity|vm_compute; reflexivity]].
    assert (NB : forall p u, ~ bound [[(lit "xmlnsb", lit "1")]] p u).
    { intros p u B. inversion B as [a up k p' u' D I|a up p' u' N' B']; subst; [|inversion B']. destruct I as [I|[]]. injection I as <- _.
      destruct D as [[D _]|[D _]]; discriminate D. }
    constructor.
    + repeat constructor. intros [].
    + intros k p u D [K|[]]. injection K as <- _. destruct D as [[D _]|[D _]]; discriminate D.
    + apply re_none; [now apply ncname_by|]. intros u B. now apply NB in B.
    + apply am_attribute; [intros p [[D _]|[D _]]; discriminate D|apply re_attribute; now apply ncname_by|constructor].
    + repeat constructor. intros [].
    + constructor.
Qed.

(** The nearest prefix of the namespace is the default, and the attribute is written without. *)
Definition lost_document : str := lit "<x xmlns:a='urn:a'><y xmlns='urn:a' a:b='1'/></x>".
Theorem C200_refuted : exists t x e s e', Read 200 lost_document = Ok t /\ means [] t x /\ simple t /\ usual t /\ fair t /\
  ReadNS 200 lost_document = Ok e /\ GenerateNSDocument EscapeCharData false no_maps e = Ok s /\ ReadNS 200 s = Ok e' /\ ~ xcanonical false x (expanded e').
Proof.
  do 5 eexists. split; [vm_compute; reflexivity|]. split; [apply (meaning_sound _ _ _ _ agree_nil); vm_compute; reflexivity|].
  split; [apply simple_by; vm_compute; reflexivity|]. split; [apply usual_by; vm_compute; reflexivity|]. split; [apply fair_by; vm_compute; reflexivity|].
  split; [vm_compute; reflexivity|]. split; [vm_compute; reflexivity|]. split; [vm_compute; reflexivity|].
  intros K. inversion K as [? ? ? ? ? ? p X Y C]; subst. destruct p; inversion C as [| |? ? ? ? ? C1 C2]; subst; inversion C1 as [? ? ? ? ? ? p' X' Y' C']; subst;
    apply Permutation_length_1 in Y'; discriminate Y'.
Qed.
(** The document is read, and cannot be written: ValueError. *)
Theorem C200_refused : exists t x e, Read 200 (lit "<x xmlns:a='urn:a' xmlns='urn:a'><a:y xmlns='urn:b'/></x>") = Ok t /\ means [] t x /\ simple t /\ usual t /\ fair t /\
  Expand [no_maps] t = Ok e /\ GenerateNSDocument EscapeCharData false no_maps e = Err ValueError.
Proof.
  do 3 eexists. split; [vm_compute; reflexivity|]. split; [apply (meaning_sound _ _ _ _ agree_nil); vm_compute; reflexivity|].
  split; [apply simple_by; vm_compute; reflexivity|]. split; [apply usual_by; vm_compute; reflexivity|]. split; [apply fair_by; vm_compute; reflexivity|].
  split; [vm_compute; reflexivity|vm_compute; reflexivity].
Qed.

Definition two_maps : list maps := [Maps [(lit "ns1", lit "urn:b")] [(lit "urn:b", lit "ns1")]; Maps [(lit "a", lit "urn:a")] [(lit "urn:a", lit "a")]].
Example C201_nonvacuous : Forall named two_maps /\ namespace (lit "urn:a") /\ GetPrefix two_maps (Some (lit "urn:a")) = Some (lit "a") /\
  NewPrefix two_maps = Ok (lit "ns2") /\ GetNS two_maps (lit "a") = Some (lit "urn:a").
Proof.
  split; [|split; [apply namespace_by; vm_compute; reflexivity|split; [|split]; vm_compute; reflexivity]].
  constructor; [|constructor; [|constructor]].
  - apply (na_make (Maps [] []) [] (lit "urn:b") None _ (lit "ns1")); [constructor|apply namespace_by; vm_compute; reflexivity|discriminate|discriminate|vm_compute; reflexivity].
  - apply (na_make (Maps [] []) [] (lit "urn:a") (Some (lit "a")) _ (lit "a")); [constructor|apply namespace_by; vm_compute; reflexivity|discriminate| |vm_compute; reflexivity].
    intros q [= <-]. right. split; [now apply C203|]. split; [discriminate|]. intros (r & E). discriminate E.
Qed.
(** A prefix of the namespace is bound, but none is found: the last made is hidden by an element inside. *)
Definition hidden : list maps := [Maps [(lit "b", lit "urn:b")] [(lit "urn:b", lit "b")];
  Maps [(lit "a", lit "urn:a"); (lit "b", lit "urn:a")] [(lit "urn:a", lit "b")]].
Theorem C202_refuted : Forall named hidden /\ GetNS hidden (lit "a") = Some (lit "urn:a") /\ GetPrefix hidden (Some (lit "urn:a")) = None.
Proof.
  assert (U : forall n, IsValidNCName n = true -> n <> lit "xml" -> ~ begins_with (lit "xmlns") n -> forall q, Some n = Some q -> usable q).
  { intros n H1 H2 H3 q [= <-]. right. split; [now apply C203|]. now split. }
  split; [|split; vm_compute; reflexivity]. constructor; [|constructor; [|constructor]].
  - apply (na_make (Maps [] []) [] (lit "urn:b") (Some (lit "b")) _ (lit "b")); [constructor|apply namespace_by; vm_compute; reflexivity|discriminate| |vm_compute; reflexivity].
    apply U; [reflexivity|discriminate|]. intros (r & E). discriminate E.
  - apply (na_make (Maps [(lit "a", lit "urn:a")] [(lit "urn:a", lit "a")]) [] (lit "urn:a") (Some (lit "b")) _ (lit "b")); [|apply namespace_by; vm_compute; reflexivity|discriminate| |vm_compute; reflexivity].
    + apply (na_make (Maps [] []) [] (lit "urn:a") (Some (lit "a")) _ (lit "a")); [constructor|apply namespace_by; vm_compute; reflexivity|discriminate| |vm_compute; reflexivity].
      apply U; [reflexivity|discriminate|]. intros (r & E). discriminate E.
    + apply U; [reflexivity|discriminate|]. intros (r & E). discriminate E.
Qed.
Example C203_nonvacuous : IsValidNCName (lit "a-1") = true /\ IsValidNCName (lit "a:b") = false /\ IsValidNCName (lit "1a") = false.
Proof. vm_compute. repeat split. Qed.

(** ** C204: documents with names that mean nothing *)
(** Full property: a document that is read with namespaces has a meaning.
    Missing: prefixes that are not bound, and attributes that mean the same, are let through; what is proved is that a
    name has one colon at most. *)
Inductive colons : tree -> Prop :=
| co_elem q a ch : (forall p l r, q <> p ++ lit ":" ++ l ++ lit ":" ++ r) ->
    (forall k v p l r, In (k, v) a -> k = p ++ lit ":" ++ l ++ lit ":" ++ r -> begins_with (lit "xmlns") k) ->
    (forall e, In (inr e) ch -> colons e) -> colons (Elem q a ch).
Lemma split_many p l r : exists x y z w, Imscp.split_on 58 (p ++ lit ":" ++ l ++ lit ":" ++ r) = x :: y :: z :: w.
Proof.
  assert (G : forall a b, exists x y w, Imscp.split_on 58 (a ++ 58 :: b) = x :: y :: w /\ (length (Imscp.split_on 58 b) <= length (y :: w))%nat).
  { intros a b. induction a as [|c a (x & y & w & E & L)].
    - cbn. destruct (ImscpProofs.split_on_cons 58 b) as (y & w & E). rewrite E. exists [], y, w. split; [reflexivity|]. rewrite ?E. cbn. lia.
    - cbn [app Imscp.split_on]. rewrite E. destruct (c =? 58); [exists [], x, (y :: w)|exists (c :: x), y, w]; (split; [reflexivity|]); cbn in *; lia. }
  destruct (G p (l ++ 58 :: r)) as (x & y & w & E & L). change (lit ":") with [58]. cbn [app]. rewrite E.
  destruct (G l r) as (x' & y' & w' & E' & _). rewrite E' in L. cbn in L. destruct w as [|z w]; [cbn in L; lia|]. exists x, y, z, w. reflexivity.
Qed.
Lemma many_refused c p l r ns d : ExpandQName c (p ++ lit ":" ++ l ++ lit ":" ++ r) ns d = Err XMLFatalError.
Proof. unfold ExpandQName. destruct (split_many p l r) as (x & y & z & w & ->). destruct y, w; reflexivity. Qed.
Theorem C204_partial fuel s e : ReadNS fuel s = Ok e -> exists t, Read fuel s = Ok t /\ colons t.
Proof.
  unfold ReadNS. destruct (Read fuel s) as [t|]; [|discriminate]. cbn [bind]. intros H. exists t. split; [reflexivity|].
  revert H. generalize [no_maps]. revert e. induction t as [q a ch IH] using tree_induct. intros e c H. rewrite Expand_eq in H.
  destruct (expand_attributes c (definitions a) a []) as [a'|] eqn:Ea; [|discriminate]. cbn [bind] in H.
  destruct (ExpandQName c q (definitions a) true) as [n|] eqn:Eq; [|discriminate]. cbn [bind] in H.
  destruct (expand_all (Maps (definitions a) (inverse (definitions a)) :: c) ch) as [ch'|] eqn:Ec; [|discriminate]. constructor.
  - intros p l r ->. rewrite many_refused in Eq. discriminate.
  - intros k v p l r K ->. destruct (XmlNs.begins_xmlns (p ++ lit ":" ++ l ++ lit ":" ++ r)) eqn:B; [now apply begins_iff|exfalso].
    revert Ea K. generalize (definitions a). intros ns. generalize (@nil ((option str * str) * str)). clear -B.
    induction a as [|[k' v'] a IH]; intros d Ea K; [destruct K|]. cbn [expand_attributes] in Ea. destruct K as [K|K].
    + pose proof (f_equal fst K) as K1; cbn [fst] in K1; subst k'. rewrite B, many_refused in Ea. discriminate.
    + destruct (XmlNs.begins_xmlns k'); [now apply (IH d)|]. destruct (ExpandQName c k' ns false) as [n|]; [|discriminate]. cbn [bind] in Ea. now apply (IH _ Ea).
  - clear -IH Ec. revert ch' Ec. induction ch as [|[s|x] ch IHc]; intros ch' Ec e K; [destruct K| |]; cbn [expand_all] in Ec.
    + destruct K as [K|K]; [discriminate|]. destruct (expand_all _ ch) as [y|]; [|discriminate]. apply (IHc (fun e K => IH e (or_intror K)) y eq_refl e K).
    + destruct (Expand _ x) as [x'|] eqn:X; [|discriminate]. cbn [bind] in Ec. destruct (expand_all _ ch) as [y|] eqn:Y; [|discriminate]. destruct K as [K|K].
      * injection K as <-. now apply (IH x (or_introl eq_refl) x' _ X).
      * apply (IHc (fun e K => IH e (or_intror K)) y eq_refl e K).
Qed.
Example C204_nonvacuous : (exists e, ReadNS 200 good_document = Ok e) /\ ReadNS 200 (lit "<a><b:c:d/></a>") = Err XMLFatalError.
Proof. split; [eexists; vm_compute; reflexivity|vm_compute; reflexivity]. Qed.
Theorem C204_refuted :
  (exists t e, Read 200 (lit "<p:a/>") = Ok t /\ ReadNS 200 (lit "<p:a/>") = Ok e /\ forall x, ~ means [] t x) /\
  (let s := lit "<a xmlns:p='u' xmlns:q='u' p:b='1' q:b='2'/>" in
   exists t e, Read 200 s = Ok t /\ ReadNS 200 s = Ok e /\ (forall x, ~ means [] t x) /\ expanded e = XElem (None, lit "a") [((Some (lit "u"), lit "b"), lit "2")] []).
Proof.
  split.
  - exists (Elem (lit "p:a") [] []). eexists. split; [vm_compute; reflexivity|]. split; [vm_compute; reflexivity|]. intros x M.
    assert (R : exists n, resolves [[]] true (lit "p:a") n) by (inversion M; eauto). destruct R as (n & R).
    assert (A : agree [[]] [Maps [] []; no_maps]) by (apply (agree_next [] [] [no_maps] agree_nil); [constructor|reflexivity]).
    assert (B : forall p u, ~ bound [[]] p u) by (intros p u B; apply A in B; discriminate).
    inversion R; subst; match goal with
    | H : bound _ _ _ |- _ => now apply B in H
    | H : ncname _ |- _ => destruct H as [_ H]; apply H; right; now left
    end.
  - cbv zeta. exists (Elem (lit "a") [(lit "xmlns:p", lit "u"); (lit "xmlns:q", lit "u"); (lit "p:b", lit "1"); (lit "q:b", lit "2")] []). eexists.
    split; [vm_compute; reflexivity|]. split; [vm_compute; reflexivity|]. split; [|vm_compute; reflexivity].
    intros x M. inversion M as [sc q n a xa ch xch Hk Hl Hr Am D Hn]; subst.
    assert (W : attributes_mean [[(lit "xmlns:p", lit "u"); (lit "xmlns:q", lit "u"); (lit "p:b", lit "1"); (lit "q:b", lit "2")]]
      [(lit "xmlns:p", lit "u"); (lit "xmlns:q", lit "u"); (lit "p:b", lit "1"); (lit "q:b", lit "2")]
      [((Some (lit "u"), lit "b"), lit "1"); ((Some (lit "u"), lit "b"), lit "2")]).
    { apply resolve_attributes_sound with (c := Maps (definitions [(lit "xmlns:p", lit "u"); (lit "xmlns:q", lit "u"); (lit "p:b", lit "1"); (lit "q:b", lit "2")]) [] :: [no_maps]); [|vm_compute; reflexivity].
      apply agree_next; [exact agree_nil|apply keys_by; vm_compute; reflexivity|vm_compute; reflexivity]. }
    assert (xa = [((Some (lit "u"), lit "b"), lit "1"); ((Some (lit "u"), lit "b"), lit "2")]) as -> .
    { eapply attributes_one; [|exact Am|exact W]. constructor; [apply keys_by; vm_compute; reflexivity|constructor]. }
    cbn in D. apply NoDup_cons_iff in D as [D _]. apply D. now left.
Qed.

Print Assumptions C197_partial.
Print Assumptions C197_refuted.
Print Assumptions C198_partial.
Print Assumptions C198_one.
Print Assumptions C198_refuted.
Print Assumptions C199_partial.
Print Assumptions C200_partial.
Print Assumptions C200_refuted.
Print Assumptions C200_refused.
Print Assumptions C201_prefix.
Print Assumptions C201_new.
Print Assumptions C201_make.
Print Assumptions C201_refused.
Print Assumptions C201_map.
Print Assumptions C202_partial.
Print Assumptions C202_refuted.
Print Assumptions C203.
Print Assumptions C204_partial.
Print Assumptions C204_refuted.
