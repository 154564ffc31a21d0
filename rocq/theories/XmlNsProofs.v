(** Prefixes: proofs. *)
From Coq Require Import Lia Permutation.
From Verif Require Import Py XmlChars XmlDoc XmlOut XmlNs.
From Verif Require Import XmlCharsSpec XmlDocSpec XmlOutSpec XmlNsSpec XmlCharsProofs XmlOutProofs2.
From Verif Require Iso Dec.
Open Scope Z_scope.
Open Scope list_scope.

(** ** Dictionaries *)
Lemma lookup_app {A} k (l m : list (str * A)) : lookup k (l ++ m) = match lookup k l with Some v => Some v | None => lookup k m end.
Proof. induction l as [|[k' v] l IH]; [reflexivity|]. cbn. destruct (str_eqb k k'); [reflexivity|exact IH]. Qed.
Lemma lookup_in {A} k (l : list (str * A)) v : lookup k l = Some v -> In (k, v) l.
Proof.
  induction l as [|[k' v'] l IH]; [discriminate|]. cbn. destruct (str_eqb k k') eqn:E; [|now right; apply IH].
  apply str_eqb_eq in E. subst. intros [= ->]. now left.
Qed.
Lemma lookup_none {A} k (l : list (str * A)) : lookup k l = None <-> ~ In k (map fst l).
Proof.
  induction l as [|[k' v'] l IH]; cbn; [tauto|]. destruct (str_eqb k k') eqn:E.
  - apply str_eqb_eq in E. subst. split; [discriminate|]. intros H. destruct H. now left.
  - rewrite IH. apply str_eqb_neq in E. split; [intros H [K|K]; [congruence|contradiction]|intros H K; apply H; now right].
Qed.
Lemma lookup_set k v d k' : lookup k' (set k v d) = if str_eqb k' k then Some v else lookup k' d.
Proof.
  induction d as [|[a b] d IH]; cbn; [reflexivity|]. destruct (str_eqb k a) eqn:E; cbn.
  - apply str_eqb_eq in E. subst. destruct (str_eqb k' a); reflexivity.
  - rewrite IH. destruct (str_eqb k' a) eqn:E'; [|reflexivity]. apply str_eqb_eq in E'. subst.
    destruct (str_eqb a k) eqn:F; [|reflexivity]. apply str_eqb_eq in F. subst. rewrite str_eqb_refl in E. discriminate.
Qed.
Lemma set_new k v d : lookup k d = None -> set k v d = d ++ [(k, v)].
Proof. induction d as [|[a b] d IH]; [reflexivity|]. cbn. destruct (str_eqb k a); [discriminate|]. intros H. now rewrite IH. Qed.
Lemma set_keys k v d : NoDup (map fst d) -> NoDup (map fst (set k v d)).
Proof.
  intros H. destruct (lookup k d) as [x|] eqn:E.
  - replace (map fst (set k v d)) with (map fst d); [exact H|]. clear H. induction d as [|[a b] d IH]; [discriminate|]. cbn in *.
    destruct (str_eqb k a) eqn:F; cbn; [apply str_eqb_eq in F; now subst|]. f_equal. now apply IH.
  - rewrite set_new by exact E. rewrite map_app. cbn. apply lookup_none in E. rewrite <- Permutation_cons_append. now constructor.
Qed.

(** ** Maps *)
Definition prefix_ok (p : str) : Prop := p = [] \/ (bmp_ncname p /\ p <> lit "xml" /\ ~ begins_with (lit "xmlns") p).
Lemma begins_xmlns p : ~ begins_with (lit "xmlns") p -> p <> lit "xmlns".
Proof. intros H ->. apply H. exists []. reflexivity. Qed.
Definition scope_of (c : context) : list (str * str) := flat_map prefixToNS c.
Record maps_ok (m : maps) : Prop := {
  mo_keys : NoDup (map fst (prefixToNS m));
  mo_back : forall u p, lookup u (nsToPrefix m) = Some p -> lookup p (prefixToNS m) = Some u;
  mo_prefix : forall p u, lookup p (prefixToNS m) = Some u -> prefix_ok p;
  mo_uri : forall p u, lookup p (prefixToNS m) = Some u -> namespace u /\ u <> xml_uri }.
Definition all_ok (c : context) : Prop := Forall maps_ok c.

Lemma scope_cons m c : scope_of (m :: c) = prefixToNS m ++ scope_of c. Proof. reflexivity. Qed.
Lemma scope_app c d : scope_of (c ++ d) = scope_of c ++ scope_of d.
Proof. unfold scope_of. apply flat_map_app. Qed.
Lemma scope_in c p u : lookup p (scope_of c) = Some u -> exists m, In m c /\ lookup p (prefixToNS m) = Some u.
Proof.
  induction c as [|m c IH]; [discriminate|]. rewrite scope_cons, lookup_app. destruct (lookup p (prefixToNS m)) as [v|] eqn:E.
  - intros [= ->]. exists m. split; [now left|exact E].
  - intros H. destruct (IH H) as (m' & K & H'). exists m'. split; [now right|exact H'].
Qed.
Lemma scope_ok c p u : all_ok c -> lookup p (scope_of c) = Some u -> prefix_ok p /\ namespace u /\ u <> xml_uri.
Proof.
  intros H K. apply scope_in in K as (m & K & E). unfold all_ok in H. rewrite Forall_forall in H. destruct (H m K) as [_ _ P U].
  split; [now apply (P p u)|now apply (U p u)].
Qed.
Lemma inner_none p inner : existsb (has_prefix p) inner = false -> lookup p (scope_of inner) = None.
Proof.
  induction inner as [|m l IH]; [reflexivity|]. cbn [existsb]. rewrite orb_false_iff. intros [H1 H2]. rewrite scope_cons, lookup_app.
  unfold has_prefix in H1. destruct (lookup p (prefixToNS m)); [discriminate|]. now apply IH.
Qed.
Lemma inner_has p inner : existsb (has_prefix p) inner = true -> lookup p (scope_of inner) <> None.
Proof.
  induction inner as [|m l IH]; [discriminate|]. cbn [existsb]. rewrite orb_true_iff. intros H. rewrite scope_cons, lookup_app.
  unfold has_prefix in H. destruct (lookup p (prefixToNS m)) eqn:E; [discriminate|]. destruct H as [H|H]; [discriminate|]. now apply IH.
Qed.

(** ** GetPrefix and GetNS *)
Lemma prefix_loop_sound c ns : forall inner p, all_ok c -> prefix_loop inner c ns = Some p -> lookup p (scope_of (inner ++ c)) = Some ns.
Proof.
  induction c as [|m c IH]; intros inner p H; [discriminate|]. apply Forall_cons_iff in H as [Hm H]. cbn [prefix_loop].
  assert (R : prefix_loop (inner ++ [m]) c ns = Some p -> lookup p (scope_of (inner ++ m :: c)) = Some ns).
  { intros K. apply IH in K; [|exact H]. now rewrite <- app_assoc in K. }
  destruct (lookup ns (nsToPrefix m)) as [p'|] eqn:E; [|exact R]. destruct (existsb (has_prefix p') inner) eqn:G; [exact R|].
  intros [= ->]. rewrite scope_app, scope_cons, !lookup_app, (inner_none _ _ G). now rewrite (mo_back m Hm _ _ E).
Qed.
Lemma GetPrefix_sound c u p : all_ok c -> namespace u -> GetPrefix c (Some u) = Some p ->
  (u = xml_uri /\ p = lit "xml") \/ (u <> xml_uri /\ lookup p (scope_of c) = Some u).
Proof.
  intros H (_ & _ & Hn & _). unfold GetPrefix. change XML_NAMESPACE with xml_uri. destruct (str_eqb u xml_uri) eqn:E.
  - apply str_eqb_eq in E. intros [= <-]. now left.
  - apply str_eqb_neq in E. change NO_NAMESPACE with (lit "~"). apply str_eqb_neq in Hn. rewrite Hn. intros K. right. split; [exact E|].
    now apply (prefix_loop_sound c u []).
Qed.
Lemma ns_loop_lookup c p : all_ok c -> ns_loop c p = lookup p (scope_of c).
Proof.
  induction c as [|m c IH]; intros H; [reflexivity|]. apply Forall_cons_iff in H as [Hm H]. cbn [ns_loop]. rewrite scope_cons, lookup_app.
  destruct (lookup p (prefixToNS m)) as [[|x u]|] eqn:E; [|reflexivity|].
  - destruct (mo_uri m Hm _ _ E) as [(_ & K & _) _]. congruence.
  - destruct c; [now destruct p|now apply IH].
Qed.
Lemma GetNS_lookup c p : all_ok c -> p <> lit "xml" -> GetNS c p = lookup p (scope_of c).
Proof. intros H Hp. unfold GetNS. apply str_eqb_neq in Hp. rewrite Hp. now apply ns_loop_lookup. Qed.

(** ** NewPrefix *)
Definition made (n : Z) : str := lit "ns" ++ Iso.fmt n.
Lemma made_ok n : 0 <= n -> prefix_ok (made n) /\ made n <> [].
Proof.
  intros Hn. split; [|discriminate]. right. pose proof (Dec.fmt_digits n Hn) as D. unfold made. split; [|split].
  - split.
    + split.
      * exists 110, (115 :: Iso.fmt n). split; [reflexivity|]. split; [unfold name_start_char; lia|]. constructor.
        -- left. unfold name_start_char. lia.
        -- eapply Forall_impl; [|exact D]. unfold Dec.is_dec, name_char. intros c. cbv beta. lia.
      * change (Forall bmp (110 :: 115 :: Iso.fmt n)). repeat constructor; [unfold bmp; lia..|].
        eapply Forall_impl; [|exact D]. unfold Dec.is_dec, bmp. intros c. cbv beta. lia.
    + change (~ In 58 (110 :: 115 :: Iso.fmt n)). intros [K|[K|K]]; [discriminate..|]. rewrite Forall_forall in D. apply D in K. unfold Dec.is_dec in K. lia.
  - discriminate.
  - intros (r & E). discriminate E.
Qed.
Lemma made_inj n m : 0 <= n -> 0 <= m -> made n = made m -> n = m.
Proof. intros Hn Hm E. apply app_inv_head in E. now apply Dec.fmt_inj. Qed.
Lemma new_loop_found c : all_ok c -> forall f n, 0 <= n -> (forall p, new_loop f c n <> Ok p) ->
  exists l, length l = f /\ NoDup l /\ (forall p, In p l -> In p (map fst (scope_of c))) /\ (forall p, In p l -> exists k, n <= k /\ p = made k).
Proof.
  intros H f. induction f as [|f IH]; intros n Hn K; [exists []; split; [reflexivity|]; split; [constructor|]; split; intros p []|].
  cbn [new_loop] in K. fold (made n) in K. rewrite GetNS_lookup in K; [|exact H|discriminate].
  destruct (lookup (made n) (scope_of c)) as [u|] eqn:E; [|now destruct (K (made n))].
  destruct (IH (n + 1) ltac:(lia) K) as (l & L & D & I & M). exists (made n :: l). split; [cbn; now rewrite L|]. split.
  - constructor; [|exact D]. intros G. destruct (M _ G) as (k & Hk & G'). apply made_inj in G'; lia.
  - split.
    + intros p [<-|G]; [apply lookup_in in E; now apply (in_map fst) in E|now apply I].
    + intros p [<-|G]; [exists n; split; [lia|reflexivity]|]. destruct (M _ G) as (k & Hk & G'). exists k. split; [lia|exact G'].
Qed.
Lemma new_loop_sound c : all_ok c -> forall f n p, 0 <= n -> new_loop f c n = Ok p -> (exists k, 0 <= k /\ p = made k) /\ lookup p (scope_of c) = None.
Proof.
  intros H f. induction f as [|f IH]; intros n p Hn; [discriminate|]. cbn [new_loop]. fold (made n).
  rewrite GetNS_lookup; [|exact H|discriminate]. destruct (lookup (made n) (scope_of c)) as [u|] eqn:E; [apply IH; lia|].
  intros [= <-]. split; [exists n; auto|exact E].
Qed.
Lemma new_loop_cases f c n : (exists p, new_loop f c n = Ok p) \/ forall p, new_loop f c n <> Ok p.
Proof. destruct (new_loop f c n) as [p|e]; [left; eauto|right; discriminate]. Qed.
Lemma NewPrefix_ok c : all_ok c -> exists p, NewPrefix c = Ok p /\ prefix_ok p /\ p <> [] /\ lookup p (scope_of c) = None.
Proof.
  intros H. unfold NewPrefix. destruct (new_loop_cases (S (bindings c)) c 1) as [(p & E)|K].
  - exists p. destruct (new_loop_sound c H _ 1 p ltac:(lia) E) as [(k & Hk & ->) N]. destruct (made_ok k Hk). auto.
  - exfalso. destruct (new_loop_found c H _ 1 ltac:(lia) K) as (l & L & D & I & _).
    pose proof (NoDup_incl_length D I) as G. rewrite L, map_length in G. unfold bindings, scope_of in G. lia.
Qed.

(** ** MakePrefix *)
Definition with_prefix (m : maps) (p u : str) : maps := Maps (set p u (prefixToNS m)) (set u p (nsToPrefix m)).
Lemma with_prefix_ok m p u : maps_ok m -> prefix_ok p -> namespace u -> u <> xml_uri -> lookup p (prefixToNS m) = None -> maps_ok (with_prefix m p u).
Proof.
  intros [K B P U] Hp Hu Hx E. constructor; cbn [with_prefix prefixToNS nsToPrefix].
  - now apply set_keys.
  - intros u' p'. rewrite !lookup_set. destruct (str_eqb u' u) eqn:F.
    + apply str_eqb_eq in F. subst. intros [= <-]. now rewrite str_eqb_refl.
    + intros G. apply B in G. destruct (str_eqb p' p) eqn:F'; [|exact G]. apply str_eqb_eq in F'. subst. congruence.
  - intros p' u'. rewrite lookup_set. destruct (str_eqb p' p) eqn:F; [apply str_eqb_eq in F; now subst|apply P].
  - intros p' u'. rewrite lookup_set. destruct (str_eqb p' p) eqn:F; [intros [= <-]; auto|apply U].
Qed.
Lemma MakePrefix_new m up u : all_ok (m :: up) -> exists p, MakePrefix m up u None = Ok (with_prefix m p u, p) /\
  prefix_ok p /\ p <> [] /\ lookup p (scope_of (m :: up)) = None.
Proof.
  intros H. destruct (NewPrefix_ok _ H) as (p & E & H1 & H2 & H3). exists p. unfold MakePrefix. rewrite E. cbn [bind].
  assert (N : lookup p (prefixToNS m) = None). { rewrite scope_cons, lookup_app in H3. now destruct (lookup p (prefixToNS m)). }
  unfold has_prefix. rewrite N. auto.
Qed.
Lemma MakePrefix_given m up u p : MakePrefix m up u (Some p) = if has_prefix p m then Err ValueError else Ok (with_prefix m p u, p).
Proof. reflexivity. Qed.
Lemma scope_with m p u c p' : lookup p' (scope_of (with_prefix m p u :: c)) = if str_eqb p' p then Some u else lookup p' (scope_of (m :: c)).
Proof. rewrite !scope_cons, !lookup_app. cbn [with_prefix prefixToNS]. rewrite lookup_set. now destruct (str_eqb p' p). Qed.

(** ** The complete map *)
Lemma complete_add d l p : lookup p (fold_left (fun (d : list (str * str)) '(p, u) => match lookup p d with Some _ => d | None => d ++ [(p, u)] end) l d) = lookup p (d ++ l).
Proof.
  revert d. induction l as [|[p' u] l IH]; intros d; cbn [fold_left]; [now rewrite app_nil_r|]. rewrite IH.
  destruct (lookup p' d) as [v|] eqn:E; rewrite !lookup_app.
  - cbn [lookup]. destruct (lookup p d) eqn:F; [reflexivity|]. destruct (str_eqb p p') eqn:G; [apply str_eqb_eq in G; congruence|reflexivity].
  - cbn [lookup]. destruct (lookup p d); [reflexivity|]. now destruct (str_eqb p p').
Qed.
Definition complete_from (c : context) (d : list (str * str)) : list (str * str) :=
  fold_left (fun d m =>
    fold_left (fun (d : list (str * str)) '(p, u) => match lookup p d with Some _ => d | None => d ++ [(p, u)] end) (prefixToNS m) d) c d.
Lemma complete_from_lookup p c : forall d, lookup p (complete_from c d) = lookup p (d ++ scope_of c).
Proof.
  induction c as [|m c IH]; intros d; cbn [complete_from fold_left]; [now rewrite app_nil_r|]. fold (complete_from c).
  unfold complete_from in IH |- *. cbn [fold_left]. rewrite IH, lookup_app, complete_add, !lookup_app.
  rewrite scope_cons, lookup_app. now destruct (lookup p d).
Qed.
Lemma complete_lookup c p : lookup p (GetPrefixMap c) = lookup p (scope_of c).
Proof. exact (complete_from_lookup p c []). Qed.
Lemma complete_from_keys c : forall d, NoDup (map fst d) -> NoDup (map fst (complete_from c d)).
Proof.
  assert (G : forall (l d : list (str * str)), NoDup (map fst d) ->
    NoDup (map fst (fold_left (fun (d : list (str * str)) '(p, u) => match lookup p d with Some _ => d | None => d ++ [(p, u)] end) l d))).
  { induction l as [|[p u] l IH]; intros d H; [exact H|]. cbn [fold_left]. apply IH. destruct (lookup p d) eqn:E; [exact H|].
    rewrite map_app. cbn. apply lookup_none in E. rewrite <- Permutation_cons_append. now constructor. }
  induction c as [|m c IH]; intros d H; [exact H|]. unfold complete_from in *. cbn [fold_left]. apply IH, G, H.
Qed.
Lemma complete_keys c : NoDup (map fst (GetPrefixMap c)).
Proof. apply (complete_from_keys c []). constructor. Qed.
