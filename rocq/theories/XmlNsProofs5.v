(** Writing what was read: proofs. *)
From Coq Require Import Lia Permutation.
From Verif Require Import Py XmlChars XmlDoc XmlOut XmlNs.
From Verif Require Import XmlCharsSpec XmlDocSpec XmlOutSpec XmlNsSpec XmlCharsProofs XmlDocProofs XmlDocProofs2 XmlOutProofs XmlOutProofs2 XmlOutProofs3 XmlNsProofs XmlNsProofs2 XmlNsProofs3 XmlNsProofs4.
Open Scope Z_scope.
Open Scope list_scope.

(** ** Canonical children *)
Lemma simple_canonq t : forall p, simple t -> simple (canonq p t).
Proof.
  induction t as [n a ch IH] using tree_induct. intros p H. inversion H as [q' a' ch' H1 H2 H3 H4]; subst. rewrite canonq_eq.
  constructor; auto. intros e K. apply in_map_iff in K as ([s|x] & E & K); cbn in E; [discriminate|]. injection E as <-.
  apply children_in in K. apply IH; [exact K|]. now apply H4.
Qed.

(** ** Maps made of declarations *)
Definition complete (m : maps) : Prop := forall p u, lookup p (prefixToNS m) = Some u -> lookup u (nsToPrefix m) = Some p.
Lemma prefix_loop_complete c u p : Forall complete c -> forall inner, lookup p (scope_of inner) = None -> lookup p (scope_of c) = Some u ->
  prefix_loop inner c u <> None.
Proof.
  induction c as [|m c IH]; intros H inner Hi Hc; [discriminate|]. apply Forall_cons_iff in H as [Hm H]. cbn [prefix_loop].
  rewrite scope_cons, lookup_app in Hc. destruct (lookup p (prefixToNS m)) as [v|] eqn:E.
  - injection Hc as ->. rewrite (Hm _ _ E). destruct (existsb (has_prefix p) inner) eqn:G; [apply inner_has in G; congruence|discriminate].
  - assert (R : prefix_loop (inner ++ [m]) c u <> None).
    { apply IH; [exact H| |exact Hc]. rewrite scope_app, lookup_app, Hi. cbn. rewrite app_nil_r. exact E. }
    destruct (lookup u (nsToPrefix m)) as [p'|]; [|exact R]. destruct (existsb _ _); [exact R|discriminate].
Qed.
Lemma GetPrefix_complete c u p : Forall complete c -> lookup p (scope_of c) = Some u -> GetPrefix c (Some u) <> None.
Proof.
  intros H K. unfold GetPrefix. destruct (str_eqb u XML_NAMESPACE); [discriminate|]. destruct (str_eqb u NO_NAMESPACE); [discriminate|].
  now apply (prefix_loop_complete c u p H []).
Qed.
Definition put (r : list (str * str)) (x : str * str) : list (str * str) := let '(p, u) := x in set u p r.
Lemma inverse_from d : forall r u p, lookup u (fold_left put d r) = Some p -> In (p, u) d \/ lookup u r = Some p.
Proof.
  induction d as [|[q v] d IH]; intros r u p H; [now right|]. cbn [fold_left] in H. apply IH in H as [H|H]; [left; now right|].
  unfold put in H. rewrite lookup_set in H. destruct (str_eqb u v) eqn:E; [|now right]. apply str_eqb_eq in E. subst. injection H as ->. left. now left.
Qed.
Lemma inverse_sound d u p : NoDup (map fst d) -> lookup u (inverse d) = Some p -> lookup p d = Some u.
Proof. intros N H. apply inverse_from in H as [H|H]; [|discriminate]. now apply in_lookup. Qed.
Lemma inverse_keeps d u : forall r p, lookup u r = Some p -> lookup u (fold_left put d r) <> None.
Proof.
  induction d as [|[q v] d IH]; intros r p H; [cbn; congruence|]. cbn [fold_left put]. destruct (str_eqb u v) eqn:E.
  - apply IH with q. rewrite lookup_set, E. reflexivity.
  - apply IH with p. rewrite lookup_set, E. exact H.
Qed.
Lemma inverse_total d u p : In (p, u) d -> forall r, lookup u (fold_left put d r) <> None.
Proof.
  induction d as [|[q v] d IH]; intros K r; [destruct K|]. cbn [fold_left put]. destruct K as [K|K]; [|now apply IH].
  injection K as -> ->. apply inverse_keeps with p. now rewrite lookup_set, str_eqb_refl.
Qed.
Lemma inverse_complete d : NoDup (map fst d) -> (forall p p' u, lookup p d = Some u -> lookup p' d = Some u -> p = p') -> complete (Maps d (inverse d)).
Proof.
  intros N I p u H. cbn [prefixToNS nsToPrefix] in *. destruct (lookup u (inverse d)) as [q|] eqn:E.
  - f_equal. apply (I q p u); [|exact H]. now apply inverse_sound.
  - exfalso. apply lookup_in in H. now apply (inverse_total d u p H []).
Qed.

(** ** Names *)
Lemma bmp_last p l : bmp_name (p ++ colon ++ l) -> ncname l -> bmp_ncname l.
Proof. intros [_ H] [K1 K2]. rewrite !Forall_app in H. repeat split; [exact K1|apply H|exact K2]. Qed.
Lemma bmp_first p l : bmp_name (p ++ colon ++ l) -> ncname p -> bmp_ncname p.
Proof. intros [_ H] [K1 K2]. rewrite !Forall_app in H. repeat split; [exact K1|apply H|exact K2]. Qed.
Lemma bmp_whole l : bmp_name l -> ncname l -> bmp_ncname l.
Proof. intros H [_ K]. now split. Qed.
Lemma resolves_local sc d k n : resolves sc d k n -> bmp_name k -> bmp_ncname (snd n).
Proof.
  intros R B. inversion R; subst; cbn [snd].
  - apply (bmp_last (lit "xml")); assumption.
  - apply (bmp_last p); assumption.
  - now apply bmp_whole.
  - now apply bmp_whole.
  - now apply bmp_whole.
Qed.
Lemma xml_namespace : namespace xml_uri.
Proof.
  assert (G : Forall (fun c => (33 <=? c) && (c <=? 126) = true) xml_uri) by (apply Forall_forall, forallb_forall; reflexivity).
  rewrite Forall_forall in G. split; [|split; [discriminate|split; discriminate]]. split; [|split].
  - apply Forall_forall. intros c K. apply G in K. unfold char. lia.
  - intros K. apply G in K. discriminate.
  - intros K. apply G in K. discriminate.
Qed.
Lemma resolves_namespace sc c d k n : agree sc c -> all_ok c -> resolves sc d k n -> forall u, fst n = Some u -> namespace u.
Proof.
  intros A O R u E. inversion R; subst; cbn [fst] in E; try discriminate; injection E as <-.
  - apply xml_namespace.
  - apply (scope_ok c p); [exact O|]. now apply A.
  - apply (scope_ok c []); [exact O|]. now apply A.
Qed.

(** ** Elements that were read *)
Lemma attributes_from sc a xa : attributes_mean sc a xa -> forall n v, In (n, v) xa ->
  exists k, In (k, v) a /\ (forall p, ~ XmlNsSpec.declaration k p) /\ resolves sc false k n.
Proof.
  intros H. induction H as [|k p v l x Hk H IH|k n v l x Hk R H IH]; intros n' v' K; [destruct K| |].
  - destruct (IH n' v' K) as (k' & K1 & K2). exists k'. split; [now right|exact K2].
  - destruct K as [K|K].
    + injection K as -> ->. exists k. split; [now left|]. now split.
    + destruct (IH n' v' K) as (k' & K1 & K2). exists k'. split; [now right|exact K2].
Qed.
Lemma read_fits t : forall ws c x, means ws t x -> simple t -> usual t -> fair t -> unambiguous ws t -> agree ws c -> filled c -> tilde_free ws ->
  all_ok c -> Forall complete c -> exists e, Expand c t = Ok e /\ expanded e = x /\ proper e /\ fits c e /\ plainly e.
Proof.
  induction t as [q a ch IH] using tree_induct. intros ws c x M S U Fa Un A F T O C.
  inversion M as [ws' q' n a' xa ch' xch Hk Hl Hr Ha Hd Hn]; subst. inversion S as [q' a' ch' Hq Hu Hb Hc]; subst.
  inversion U as [q' a' ch' Hx Hp Huc]; subst. inversion Un as [ws' q' a' ch' Hi Hdef Hunc]; subst.
  apply every_in in Fa as (Fn & _ & Fv & Fs & Ft & Fe).
  rewrite Expand_eq. set (ns := definitions a). set (m := Maps ns (inverse ns)).
  assert (A' : agree (a :: ws) (m :: c)) by now apply definitions_agree.
  assert (L : forall p u, lookup p ns = Some u -> In (declaration_name p, u) a) by (intros p u; now apply definitions_lookup).
  assert (D : forall p, XmlNsSpec.declaration (declaration_name p) p) by (intros p; now apply declaration_eq).
  assert (Kns : NoDup (map fst ns)) by (unfold ns; rewrite definitions_eq by assumption; now apply defined_keys).
  assert (F' : filled (m :: c)).
  { intros m' p u [<-|K] E; [|now apply (F m' p u)]. cbn [m prefixToNS] in E. apply L in E. now apply (Hu _ p u (D p)) in E. }
  assert (T' : tilde_free (a :: ws)).
  { intros p u B. inversion B; subst; [|now apply (T p u)]. match goal with H1 : XmlNsSpec.declaration _ _, H2 : In _ _ |- _ => now apply (Hu _ _ _ H1) in H2 end. }
  assert (Om : maps_ok m).
  { constructor; cbn [m prefixToNS nsToPrefix].
    - exact Kns.
    - intros u p. now apply inverse_sound.
    - intros p u E. apply L in E. destruct p as [|y p]; [now left|]. right.
      destruct (Hl _ _ _ (D _) E) as (_ & _ & _ & N). destruct (N ltac:(discriminate)) as [N' _].
      destruct (Hp _ _ _ (D _) E) as [P1 P2]. split; [|split; assumption]. apply Fv in E as [E _]. now apply (bmp_last (lit "xmlns")).
    - intros p u E. apply L in E. destruct (Hl _ _ _ (D _) E) as (_ & N2 & N3 & _). destruct (Hu _ _ _ (D _) E) as [N4 N5].
      destruct (Hp _ _ _ (D _) E) as [P1 _]. apply Fv in E as [_ E]. split; [|intros Ex; apply P1; now apply N3]. now repeat split; try apply E. }
  assert (O' : all_ok (m :: c)) by (constructor; assumption).
  assert (C' : Forall complete (m :: c)).
  { constructor; [|exact C]. apply inverse_complete; [exact Kns|]. intros p p' u E E'. apply L in E, E'.
    apply declaration_inj. now apply (Hi _ p _ p' u). }
  rewrite (expand_attributes_ok (a :: ws) c (inverse ns) ns A' F a xa Ha Hb []) by (cbn [app]; now apply (raw_keys (a :: ws) a)). cbn [bind app].
  destruct (expand_element (a :: ws) c (inverse ns) ns q n A' F' Hr Hq) as (u & -> & En). cbn [bind].
  assert (CH : exists ch', expand_all (m :: c) ch = Ok ch' /\ map (on_elem expanded) ch' = xch /\
    (forall e, In (inr e) ch' -> proper e /\ fits (m :: c) e /\ plainly e) /\ (forall s, In (inl s) ch' -> In (inl s) ch) /\ (separate ch -> apart ch')).
  { clear -IH Hn Hc Huc Hunc Fe A' F' T' O' C'. induction Hn as [sc|sc s l y H IHl|sc e y l z M H IHl].
    - exists []. split; [reflexivity|]. split; [reflexivity|]. split; [intros e []|]. split; [intros s []|constructor].
    - destruct IHl as (ch' & E & <- & G1 & G2 & G3); try assumption; try (intros e K; first [apply IH|apply Hc|apply Huc|apply Hunc|apply Fe]; now right).
      exists (inl s :: ch'). cbn [expand_all]. rewrite E. split; [reflexivity|]. split; [reflexivity|]. split; [intros e [K|K]; [discriminate|now apply G1]|].
      split; [intros s' [K|K]; [injection K as ->; now left|right; now apply G2]|].
      intros Sep. inversion Sep as [|s' Hs|e l' Hs|s' e l' Hs Hs']; subst.
      + cbn in E. injection E as <-. now constructor.
      + specialize (G3 (se_elem _ _ Hs')). cbn [expand_all] in E. destruct (Expand _ e) as [e'|]; [|discriminate]. cbn [bind] in E.
        destruct (expand_all _ l') as [l2|]; [|discriminate]. injection E as <-. inversion G3; subst. now constructor.
    - destruct IHl as (ch' & E & <- & G1 & G2 & G3); try assumption; try (intros e' K; first [apply IH|apply Hc|apply Huc|apply Hunc|apply Fe]; now right).
      destruct (IH e (or_introl eq_refl) sc (m :: c) y M) as (e' & E' & <- & G4); try assumption; try (first [apply Hc|apply Huc|apply Hunc|apply Fe]; now left).
      exists (inr e' :: ch'). cbn [expand_all]. rewrite E'. cbn [bind]. rewrite E. split; [reflexivity|]. split; [reflexivity|].
      split; [intros e2 [K|K]; [injection K as <-; exact G4|now apply G1]|]. split; [intros s' [K|K]; [discriminate|right; now apply G2]|].
      intros Sep. inversion Sep; subst. constructor. now apply G3. }
  destruct CH as (ch' & -> & Ec & G1 & G2 & G3). cbn [bind fst snd]. eexists. split; [reflexivity|].
  assert (Back : map meant (map raw_attr xa) = xa) by now apply (attributes_back (a :: ws) a).
  assert (In_a : forall w k v, In ((w, k), v) (map raw_attr xa) -> exists n' k', (w, k) = raw n' /\ In (k', v) a /\ (forall p, ~ XmlNsSpec.declaration k' p) /\
      resolves (a :: ws) false k' n' /\ attribute_ns w = fst n' /\ k = snd n').
  { intros w k v K. apply in_map_iff in K as ([n' v'] & E & K). unfold raw_attr in E. cbn [fst snd] in E.
    pose proof (f_equal fst E) as R. pose proof (f_equal snd E) as Ev. cbn [fst snd] in R, Ev. subst v'. symmetry in R.
    destruct (attributes_from _ _ _ Ha n' v K) as (k' & K1 & K2 & K3). exists n', k'.
    split; [exact R|]. split; [exact K1|]. split; [exact K2|]. split; [exact K3|].
    split; [rewrite <- (raw_back _ _ _ _ T' K3), <- R; reflexivity|]. now apply (f_equal snd) in R. }
  assert (Nx : forall k v, In (k, v) a -> (forall p, ~ XmlNsSpec.declaration k p) -> ~ begins_with (lit "xmlns") k).
  { intros k v K N B. destruct (Hb k v K B) as (p & Kp). now apply (N p). }
  assert (Hnone : forall w k v, In ((w, k), v) (map raw_attr xa) -> attribute_ns w = None -> ~ begins_with (lit "xmlns") k).
  { intros w k v K E. destruct (In_a w k v K) as (n' & k' & _ & K1 & K2 & K3 & K4 & ->). rewrite E in K4.
    inversion K3; subst; cbn [fst] in K4; try discriminate. cbn [snd]. now apply (Nx _ v). }
  split; [rewrite expanded_eq, En, Ec, Back; now destruct n|]. split; [|split].
  - constructor; [|intros e K; now apply G1]. split; [now apply (resolves_local _ _ _ _ Hr)|].
    split; [intros w Ew; rewrite En in Ew; now apply (resolves_namespace _ _ _ _ _ A' O' Hr)|].
    split; [|split; [|split; [now apply G3|intros s K; apply Ft; now apply G2]]].
    + rewrite <- Back in Hd. rewrite map_map in Hd. rewrite map_map. rewrite !map_map in Hd. exact Hd.
    + intros w k v K. destruct (In_a w k v K) as (n' & k' & R & K1 & K2 & K3 & K4 & ->).
      pose proof (Fv _ _ K1) as [B1 B2]. split; [now apply (resolves_local _ _ _ _ K3)|]. split; [exact B2|]. split.
      * intros y Ey. rewrite K4 in Ey. now apply (resolves_namespace _ _ _ _ _ A' O' K3).
      * intros Ey. apply begins_xmlns. now apply (Hnone w _ v).
  - assert (Hg : forall w k v, In ((w, k), v) (map raw_attr xa) -> GetPrefix (m :: c) w <> None).
    { intros w k v K. destruct (In_a w k v K) as (n' & k' & R & K1 & K2 & K3 & K4 & ->).
      destruct w as [w|]; [|discriminate]. unfold raw in R. inversion K3; subst; cbn [fst snd] in R; injection R as ->.
      - discriminate.
      - match goal with H : bound _ _ _ |- _ => apply A' in H; now apply (GetPrefix_complete _ _ _ C') in H end.
      - discriminate. }
    assert (He : exists p, element_prefix m c u = Ok (m, p)).
    { unfold element_prefix. destruct u as [[|y u]|]; eauto. cbn [element_ns] in En.
      destruct (GetPrefix (m :: c) (Some (y :: u))) as [p|] eqn:G; [eauto|]. exfalso. revert G.
      inversion Hr; subst; cbn [fst] in En; try discriminate; apply (f_equal (fun o : option str => match o with Some z => z | None => [] end)) in En; cbv beta iota in En.
      - rewrite En. unfold GetPrefix. change XML_NAMESPACE with xml_uri. rewrite str_eqb_refl. discriminate.
      - match goal with H : bound _ _ _ |- _ => apply A' in H; rewrite <- En in H; now apply (GetPrefix_complete _ _ _ C') in H end.
      - match goal with H : bound _ _ _ |- _ => apply A' in H; rewrite <- En in H; now apply (GetPrefix_complete _ _ _ C') in H end. }
    destruct He as (p & Ep). apply fi with m p; [exact Om| |exact Ep| |].
    + intros E. rewrite En in E. destruct (lookup [] (scope_of (m :: c))) as [w|] eqn:G; [|reflexivity]. exfalso.
      assert (B : bound (a :: ws) [] w) by now apply A'. inversion Hr; subst; cbn [fst] in E; try discriminate.
      match goal with H : forall u, bound _ _ u -> u = [] |- _ => apply H in B end. subst w. apply scope_in in G as (m' & K & G). now apply (F' m' [] []).
    + intros w k v y K Ey G. destruct (In_a w k v K) as (n' & k' & R & K1 & K2 & K3 & K4 & ->). rewrite K4 in Ey.
      inversion K3; subst; cbn [fst] in Ey; try discriminate; injection Ey as <-.
      * now apply (scope_ok (m :: c) [] _ O') in G.
      * apply A' in G. revert G. match goal with H : bound _ _ _, N : ncname ?p, N' : ncname ?l |- _ => now apply (Hdef p l v) end.
    + intros m2 w Ew e K. apply attribute_names_same in Ew; [subst m2; now apply G1|]. intros w' k v K'. apply (Hg w' k v).
      eapply Permutation_in; [apply sort_keys_perm|exact K'].
  - constructor; [|intros e K; now apply G1]. split; [|exact Hnone]. intros E. inversion Hr; subst; cbn [snd] in E; subst.
    + now apply (Hx (lit "xml")).
    + now apply (Hx p).
    + congruence.
    + congruence.
Qed.
