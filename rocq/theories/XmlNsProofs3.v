(** Writing elements with namespaces: proofs. *)
From Coq Require Import Lia Permutation.
From Verif Require Import Py XmlChars XmlDoc XmlOut XmlNs.
From Verif Require Import XmlCharsSpec XmlDocSpec XmlOutSpec XmlNsSpec XmlCharsProofs XmlDocProofs XmlDocProofs2 XmlOutProofs XmlOutProofs2 XmlOutProofs3 XmlNsProofs XmlNsProofs2.
Open Scope Z_scope.
Open Scope list_scope.

(** ** Children *)
Lemma loop_in {E} (e : E) l : forall data m, In (inr e) (canonical_loop data m l) -> In (inr e) l.
Proof.
  induction l as [|[s|x] l IH]; intros data m; cbn [canonical_loop].
  - destruct data as [|d data]; [intros []|]. cbv zeta. destruct (str_eqb _ _); [destruct m; [intros [K|[K|[]]]; discriminate|intros []]|].
    destruct (last _ 0 =? 32); intros [K|[]]; discriminate.
  - intros K. right. now apply (IH _ _ K).
  - rewrite in_app_iff. intros [K|[K|K]].
    + destruct data; [destruct K|]. cbv zeta in K. destruct (_ || _); [destruct K as [K|[]]; discriminate|destruct K].
    + now left.
    + right. now apply (IH _ _ K).
Qed.
Lemma children_in {E} (e : E) p l : In (inr e) (GetCanonicalChildren p l) -> In (inr e) l.
Proof.
  destruct l as [|c l]; [intros []|]. cbn [GetCanonicalChildren]. destruct p; [auto|]. destruct l as [|d l], c as [s|x].
  - intros [K|[]]. discriminate.
  - auto.
  - intros K. right. now apply loop_in in K.
  - intros [K|K]; [now left|]. right. now apply loop_in in K.
Qed.
Lemma apart_cases {E} (l : list (str + E)) : apart l -> (length l <= 1)%nat \/ exists e, In (inr e) l.
Proof.
  intros []; [left; cbn; lia|left; cbn; lia|right; exists e; now left|right; exists e; right; now left].
Qed.
Lemma apart_separate l : @apart tree l -> separate l.
Proof. induction 1; now constructor. Qed.
Lemma apart_map {E F} (f : E -> F) l : apart l -> apart (map (on_elem f) l).
Proof. induction 1; cbn; now constructor. Qed.

(** ** Elements whose prefixes can be chosen *)
Inductive fits : context -> nelem -> Prop :=
| fi up ns n a m ch m1 p : maps_ok m ->
    (element_ns ns = None -> lookup [] (scope_of (m :: up)) = None) ->
    element_prefix m up ns = Ok (m1, p) ->
    (forall u k v w, In ((u, k), v) a -> attribute_ns u = Some w -> lookup [] (scope_of (m1 :: up)) <> Some w) ->
    (forall m2 w, attribute_names m1 up (sort_keys a) = Ok (m2, w) -> forall e, In (inr e) ch -> fits (m2 :: up) e) ->
    fits up (NElem ns n a m ch).

Fixpoint xsorted (t : nelem) : xtree :=
  match t with
  | NElem ns n a _ ch =>
      XElem (element_ns ns, n) (map meant (sort_keys a)) (map (fun c => match c with inl s => inl s | inr e => inr (xsorted e) end) ch)
  end.
Lemma xsorted_eq ns n a m ch : xsorted (NElem ns n a m ch) = XElem (element_ns ns, n) (map meant (sort_keys a)) (map (on_elem xsorted) ch).
Proof. reflexivity. Qed.
Lemma expanded_eq ns n a m ch : expanded (NElem ns n a m ch) = XElem (element_ns ns, n) (map meant a) (map (on_elem expanded) ch).
Proof. cbn [expanded]. f_equal. apply map_ext. now intros [[u k] v]. Qed.
Fixpoint qualify_all (up : context) (l : list (str + nelem)) : result (list node) :=
  match l with
  | [] => Ok []
  | inl s :: l' => r <- qualify_all up l' ;; Ok (inl s :: r)
  | inr e :: l' => q <- Qualify false up e ;; r <- qualify_all up l' ;; Ok (inr q :: r)
  end.
Lemma Qualify_eq root up ns n a m ch : Qualify root up (NElem ns n a m ch) =
  r <- element_prefix m up ns ;;
  let '(m1, p) := r in
  r <- attribute_names m1 up (sort_keys a) ;;
  let '(m2, w) := r in
  ch' <- qualify_all (m2 :: up) ch ;;
  Ok (Elem (qname p n) (WriteNSAttributes root m2 up ++ w) ch').
Proof.
  cbn [Qualify]. destruct (element_prefix m up ns) as [[m1 p]|]; [|reflexivity]. cbn [bind].
  destruct (attribute_names m1 up (sort_keys a)) as [[m2 w]|]; [|reflexivity]. cbn [bind]. f_equal.
  induction ch as [|[s|e] ch IH]; [reflexivity| |]; cbn [qualify_all]; [now rewrite IH|]. destruct (Qualify false (m2 :: up) e); [|reflexivity].
  cbn [bind]. now rewrite IH.
Qed.
Lemma throughout_in P ns n a m ch : throughout P (NElem ns n a m ch) -> P ns n a m ch /\ forall e, In (inr e) ch -> throughout P e.
Proof. intros H. inversion H; subst. auto. Qed.
Lemma declaration_bmp p : prefix_ok p -> bmp_name (declaration_name p).
Proof.
  assert (X : bmp_name (lit "xmlns")) by now apply bmp_name_iff.
  intros [->|[H _]]; [exact X|]. replace (declaration_name p) with (qname (lit "xmlns") p).
  - apply qname_bmp; [|exact H]. right. split; [exact X|]. vm_compute. intuition discriminate.
  - destruct p; [destruct (ncname_nil [] (bmp_nc _ H)); reflexivity|reflexivity].
Qed.
Lemma begins_colon (z p n r : str) : ~ In 58 z -> p ++ colon ++ n = z ++ r -> begins_with z p.
Proof.
  revert p. induction z as [|x z IH]; intros p H E; [exists p; reflexivity|]. destruct p as [|y p]; cbn in E.
  - injection E as E _. destruct H. left. congruence.
  - injection E as -> E. destruct (IH p) as (w & ->); [intros K; apply H; now right|exact E|]. exists w. reflexivity.
Qed.
Lemma qualify_means t : proper t -> forall (root : bool) up ws, all_ok up -> fits up t -> (if root then ws = [] else agree ws up) ->
  exists q, Qualify root up t = Ok q /\ means ws q (xsorted t) /\ fair q /\ (plainly t -> simple q).
Proof.
  induction t as [ns n a m ch IH] using nelem_induct. intros H root up ws Hup Hf Hws.
  apply throughout_in in H as [(Hn & Hns & Hd & Ha & Hs & Ht) He].
  inversion Hf as [up' ns' n' a' m' ch' m1 p Hm H0 Hp Hdef Hch]; subst up' ns' n' a' m' ch'.
  assert (Hok : all_ok (m :: up)) by (constructor; assumption).
  destruct (element_prefix_sound m up ns m1 p Hok Hns Hp) as (Hok1 & Hnamed & Hm1).
  assert (Hin : forall x, In x (sort_keys a) -> In x a) by (intros x K; eapply Permutation_in; [apply sort_keys_perm|exact K]).
  destruct (attribute_names_ok up (sort_keys a) m1 Hok1) as (m2 & w & Ew & Hok2 & Hgrow & Hnil & Hw).
  { intros u k v x K A. apply Hin in K. split; [now apply (Ha u k v)|now apply (Hdef u k v x)]. }
  rewrite Qualify_eq, Hp. cbn [bind]. rewrite Ew. cbn [bind].
  assert (Ha' : forall (s : option str) (k v : str), In ((s, k), v) (sort_keys a) -> bmp_ncname k /\ line v /\
    (forall u : str, attribute_ns s = Some u -> namespace u) /\ (attribute_ns s = None -> k <> lit "xmlns")).
  { intros u k v K. now apply Ha, Hin. }
  assert (Hd' : NoDup (map (fun x => (attribute_ns (fst (fst x)), snd (fst x))) (sort_keys a))).
  { eapply Permutation_NoDup; [|exact Hd]. apply Permutation_map. symmetry. apply sort_keys_perm. }
  set (A := WriteNSAttributes root m2 up ++ w).
  pose proof (agree_step root m2 up (sort_keys a) w Hok2 Ha' Hw ws Hws) as Hag. fold A in Hag.
  assert (C : exists ch', qualify_all (m2 :: up) ch = Ok ch' /\ nodes_mean (A :: ws) ch' (map (on_elem xsorted) ch) /\ apart ch' /\
    (forall s, In (inl s) ch' -> In (inl s) ch) /\ forall e, In (inr e) ch' -> fair e /\ ((forall e, In (inr e) ch -> plainly e) -> simple e)).
  { specialize (Hch m2 w Ew). clear Ht.
    assert (G : forall e, In (inr e) ch -> exists q, Qualify false (m2 :: up) e = Ok q /\ means (A :: ws) q (xsorted e) /\ fair q /\ (plainly e -> simple q)).
    { intros e K. apply IH; [exact K|now apply He|exact Hok2|now apply Hch|exact Hag]. }
    clear -Hs G. induction Hs as [|s Hs|e l H IHl|s e l Hs H IHl].
    - exists []. split; [reflexivity|]. split; [constructor|]. split; [constructor|]. split; [intros s []|intros e []].
    - exists [inl s]. split; [reflexivity|]. split; [repeat constructor|]. split; [now constructor|]. split; [intros u [K|[]]; injection K as ->; now left|]. intros e [K|[]]. discriminate.
    - destruct (G e (or_introl eq_refl)) as (q & Eq & Mq & Fq & Sq). destruct IHl as (ch' & E1 & E2 & E3 & E4 & E5); [intros x K; apply G; now right|].
      exists (inr q :: ch'). cbn [qualify_all]. rewrite Eq. cbn [bind]. rewrite E1. split; [reflexivity|]. split; [now constructor|]. split; [now constructor|].
      split; [intros s [K|K]; [discriminate|right; auto]|]. intros x [K|K].
      + injection K as <-. split; [exact Fq|]. intros X. apply Sq, X. now left.
      + destruct (E5 x K) as [F1 F2]. split; [exact F1|]. intros X. apply F2. intros y Y. apply X. now right.
    - destruct (G e (or_intror (or_introl eq_refl))) as (q & Eq & Mq & Fq & Sq). destruct IHl as (ch' & E1 & E2 & E3 & E4 & E5); [intros x K; apply G; right; now right|].
      exists (inl s :: inr q :: ch'). cbn [qualify_all]. rewrite Eq. cbn [bind]. rewrite E1. split; [reflexivity|].
      split; [cbn [map on_elem]; now repeat constructor|]. split; [now constructor|].
      split; [intros u [K|[K|K]]; [injection K as ->; now left|discriminate|right; right; auto]|]. intros x [K|[K|K]]; [discriminate| |].
      + injection K as <-. split; [exact Fq|]. intros X. apply Sq, X. right. now left.
      + destruct (E5 x K) as [F1 F2]. split; [exact F1|]. intros X. apply F2. intros y Y. apply X. right. now right. }
  destruct C as (ch' & E1 & E2 & E3 & E4 & E5). rewrite E1. cbn [bind]. exists (Elem (qname p n) A ch'). split; [reflexivity|]. split.
  - rewrite xsorted_eq. apply me_elem.
    + exact (all_keys root m2 up (sort_keys a) w Hok2 Ha' Hd' Hw).
    + exact (all_legal root m2 up (sort_keys a) w Hok2 Ha' Hw).
    + unfold element_named in Hnamed. destruct (element_ns ns) as [u|] eqn:En.
      * destruct Hnamed as [[-> ->]|[Hx Hl]].
        -- change (qname (lit "xml") n) with (lit "xml:" ++ n). apply re_xml. now apply bmp_nc.
        -- apply Hgrow in Hl. destruct p as [|x p].
           ++ apply re_default; [now apply bmp_nc|now apply Hag|]. apply (Hns u eq_refl).
           ++ apply (prefix_resolves root m2 up w Hok2); auto. discriminate.
      * subst p. cbn [qname]. apply re_none; [now apply bmp_nc|]. intros u K. apply Hag in K. rewrite Hnil in K.
        destruct Hm1 as [->|(u' & K' & _)]; [|congruence]. rewrite (H0 eq_refl) in K. discriminate.
    + exact (attributes_meant root m2 up (sort_keys a) w Hok2 Ha' Hw ws Hag).
    + rewrite map_map. exact Hd'.
    + exact E2.
  - split.
    1: constructor.
    + apply qname_bmp; [|exact Hn]. unfold element_named in Hnamed. destruct (element_ns ns) as [u|]; [|now left].
      destruct Hnamed as [[_ ->]|[_ K]]; [right; apply xml_ncname|]. apply (scope_ok _ _ _ Hok1) in K as [[K|[K _]] _]; auto.
    + exact (all_keys root m2 up (sort_keys a) w Hok2 Ha' Hd' Hw).
    + intros k v K. unfold A in K. apply in_app_iff in K as [K|K].
      * apply (declared_in root m2 up _ _ (Forall_inv Hok2)) in K as (p' & -> & K). apply force_ok, (scope_ok _ _ _ Hok2) in K as (K1 & K2 & _).
        split; [now apply declaration_bmp|apply K2].
      * destruct (written_in m2 up _ _ Hw k v K) as (ns' & n' & p' & K1 & -> & K3). destruct (Ha' _ _ _ K1) as (K4 & K5 & _).
        split; [|exact K5]. apply qname_bmp; [|exact K4]. now apply (named_colon m2 up Hok2 ns').
    + now apply apart_separate.
    + intros s K. apply Ht. auto.
    + intros e K. now apply E5.
    + intros Hpl. apply throughout_in in Hpl as [[Hp1 Hp2] Hp3]. constructor.
      * intros E. destruct p as [|x p]; [now apply Hp1|]. rewrite qname_eq in E by discriminate.
        assert (K : In 58 (lit "xmlns")) by (rewrite <- E; apply in_app_iff; right; now left). revert K. vm_compute. intuition discriminate.
      * intros k p' u Hk K. apply (declared_here root m2 up (sort_keys a) w Hok2 Ha' Hw p' k u Hk) in K.
        apply force_ok, (scope_ok _ _ _ Hok2) in K as (_ & (_ & K1 & K2 & _) & _). auto.
      * intros k u K Hb. unfold A in K. apply in_app_iff in K as [K|K].
        -- apply (declared_in root m2 up _ _ (Forall_inv Hok2)) in K as (p' & -> & _). exists p'. now apply declaration_eq.
        -- exfalso. destruct (written_in m2 up _ _ Hw k u K) as (ns' & n' & p' & K1 & -> & K3).
           apply (named_prefix m2 up Hok2) in K3 as [[-> K3]|[[-> _]|(B & _ & K3 & _)]].
           ++ apply (Hp2 ns' n' u (Hin _ K1) K3). exact Hb.
           ++ destruct Hb as (r & Hb). discriminate Hb.
           ++ destruct Hb as (r & Hb). rewrite qname_eq in Hb by (apply ncname_nil; now apply bmp_nc).
              apply K3. revert Hb. apply begins_colon. vm_compute. intuition discriminate.
      * intros e K. apply E5; [exact K|exact Hp3].
Qed.

(** ** The text *)
Fixpoint canonq (outer : bool) (t : tree) : tree :=
  match t with
  | Elem n a ch => Elem n a (GetCanonicalChildren (preserves outer a)
      (map (fun c => match c with inl s => inl s | inr e => inr (canonq (preserves outer a) e) end) ch))
  end.
Lemma canonq_eq p n a ch : canonq p (Elem n a ch) = Elem n a (map (on_elem (canonq (preserves p a))) (GetCanonicalChildren (preserves p a) ch)).
Proof. cbn [canonq]. f_equal. exact (canonical_map (canonq (preserves p a)) (preserves p a) ch). Qed.
Section Text.
Variable esc : str -> bool -> str.
Hypothesis Hesc : faithful esc.
Lemma line_flat v : line v -> map flat_char v = v.
Proof.
  intros (_ & H9 & H10). transitivity (map (fun x => x) v); [|apply map_id]. apply map_ext_in. intros c Hc. unfold flat_char.
  destruct (Z.eqb_spec c 9); [subst; contradiction|]. destruct (Z.eqb_spec c 10); [subst; contradiction|reflexivity].
Qed.
Lemma attributes_text a : (forall k v, In (k, v) a -> bmp_name k /\ line v) -> attributes plain a (AttributesText esc a).
Proof.
  intros G. induction a as [|[k v] l IH]; [constructor; constructor|]. cbn [AttributesText flat_map].
  destruct (G k v (or_introl eq_refl)) as [Hk Hv].
  assert (Q : exists q ps, (q = 34 \/ q = 39) /\ Forall2 (fun c p => piece c p /\ p <> [q]) v ps /\
    (if declares k then EscapeCharData v true else esc v true) = [q] ++ concat ps ++ [q]).
  { destruct (declares k); [apply (faithful_esc v (proj1 Hv))|apply (Hesc v (proj1 Hv))]. }
  destruct Q as (q & ps & Hq & Hp & ->). rewrite <- !app_assoc.
  apply as_cons; [split; [discriminate|repeat constructor]|exact Hk| |exact Hq| |].
  - exists [], []. split; [constructor|]. split; [constructor|reflexivity].
  - pose proof (pieces_att q v ps (proj1 Hv) Hq Hp) as X. now rewrite (line_flat v Hv) in X.
  - apply IH. intros k' v' K. apply G. now right.
Qed.
Lemma text_eq p ws n a ch : GenerateText esc p ws (Elem n a ch) =
  match map (on_elem (GenerateText esc (preserves p a) [])) (GetCanonicalChildren (preserves p a) ch) with
  | [] => ws ++ lit "<" ++ n ++ AttributesText esc a ++ lit "/>"
  | l => ws ++ lit "<" ++ n ++ AttributesText esc a ++ lit ">" ++ flat_map (put esc) l ++ lit "</" ++ n ++ lit ">"
  end.
Proof.
  cbn [GenerateText]. cbv zeta. pose proof (canonical_map (GenerateText esc (preserves p a) []) (preserves p a) ch) as M.
  unfold on_elem at 1 in M. rewrite M. destruct (map _ _) as [|x l]; reflexivity.
Qed.
Lemma text_ws p ws t : GenerateText esc p ws t = ws ++ GenerateText esc p [] t.
Proof. destruct t as [n a ch]. rewrite !text_eq. destruct (map _ _); reflexivity. Qed.
Lemma text_element t : fair t -> forall p, element plain (GenerateText esc p [] t) (canonq p t).
Proof.
  induction t as [n a ch IH] using tree_induct. intros H p. apply every_in in H as (Hn & Hd & Ha & Hs & Ht & He).
  rewrite text_eq, canonq_eq. set (q := preserves p a). set (l := GetCanonicalChildren q ch).
  assert (Hl : separate l) by now apply canon_sep.
  assert (C : content plain (flat_map (put esc) (map (on_elem (GenerateText esc q [])) l)) (map (on_elem (canonq q)) l)).
  { apply write_content; [exact Hesc|exact Hl|now apply canon_texts|]. intros e K. apply IH; [|apply He]; now apply (canon_in q ch Hs). }
  pose proof (attributes_text a Ha) as A.
  destruct l as [|x l].
  - cbn [map app]. apply el_empty; assumption.
  - cbn [map] in *. cbn [app]. change (n ++ lit ">") with (n ++ [] ++ lit ">"). apply el_full; [exact Hn|exact A|exact Hd|exact C|constructor].
Qed.
Lemma text_fine t : fair t -> forall p, Forall fine (GenerateText esc p [] t).
Proof.
  induction t as [n a ch IH] using tree_induct. intros H p. apply every_in in H as (Hn & Hd & Ha & Hs & Ht & He).
  rewrite text_eq. set (q := preserves p a).
  assert (C : Forall fine (flat_map (put esc) (map (on_elem (GenerateText esc q [])) (GetCanonicalChildren q ch)))).
  { apply Forall_forall. intros c Hc. apply in_flat_map in Hc as (x & K & Hc). apply in_map_iff in K as ([s|e] & <- & K); cbn [on_elem put] in Hc.
    - revert c Hc. apply Forall_forall. apply safe_fine, esc_safe; [exact Hesc|]. eapply canon_texts; eauto.
    - revert c Hc. apply Forall_forall. apply IH; [|apply He]; now apply (canon_in q ch Hs). }
  assert (A : Forall fine (AttributesText esc a)).
  { apply Forall_forall. intros c Hc. unfold AttributesText in Hc. apply in_flat_map in Hc as ([k v] & K & Hc).
    destruct (Ha k v K) as [Hk Hv]. revert c Hc. apply Forall_forall.
    rewrite !Forall_app. split; [now apply fine_by|]. split; [now apply name_fine|]. split; [now apply fine_by|].
    destruct (declares k); apply safe_fine, esc_safe; [apply faithful_esc|apply Hv|exact Hesc|apply Hv]. }
  pose proof (name_fine n Hn) as N.
  destruct (map _ _); rewrite !Forall_app; repeat split; auto; apply fine_by; reflexivity.
Qed.
Definition whole_text (t : tree) : str := XmlOutProofs3.declaration ++ [10] ++ GenerateText esc false [] t.
Lemma document_text tab d t : GenerateNSDocument esc tab d t = (q <- Qualify true [d] t ;; Ok (whole_text q)).
Proof.
  unfold GenerateNSDocument. destruct (Qualify true [d] t) as [q|]; [|reflexivity]. cbn [bind]. f_equal. unfold whole_text.
  destruct tab; [|reflexivity]. now rewrite text_ws.
Qed.
Lemma text_written t : fair t -> document plain not_declared (fun z => z = []) (whole_text t) (canonq false t).
Proof.
  intros H. exists XmlOutProofs3.declaration, [10], (GenerateText esc false [] t), [], []. split; [unfold whole_text; cbn [app]; now rewrite !app_nil_r|].
  split; [right; apply declaration_ok|]. split; [apply mi_space; [right; right; now left|constructor]|]. split; [now apply text_element|].
  split; [constructor|reflexivity].
Qed.
Lemma whole_fine t : fair t -> Forall fine (whole_text t).
Proof.
  intros H. unfold whole_text. rewrite !Forall_app. split; [now apply fine_by|]. split; [|now apply text_fine].
  constructor; [unfold fine, char; lia|constructor].
Qed.
Lemma text_opened t : fair t -> opened (whole_text t) (whole_text t).
Proof.
  intros H. pose proof (whole_fine t H) as F. exists (whole_text t). split.
  - clear H. induction F as [|c s [_ Hc] _ IH]; [constructor|]. now constructor.
  - right. split; [reflexivity|]. intros y E. discriminate E.
Qed.
End Text.

(** ** Canonical form and meaning *)
Definition space_name : xname := (Some xml_uri, lit "space").
Definition xname_dec (a b : xname) : {a = b} + {a <> b}.
Proof. decide equality; [apply list_eq_dec, Z.eq_dec|decide equality; apply list_eq_dec, Z.eq_dec]. Defined.
Fixpoint xspace (a : list (xname * str)) : option str :=
  match a with [] => None | (n, v) :: l => if xname_dec n space_name then Some v else xspace l end.
Definition xpreserves (outer : bool) (a : list (xname * str)) : bool :=
  match xspace a with Some v => str_eqb v (lit "preserve") | None => outer end.
Fixpoint xcanon (outer : bool) (x : xtree) : xtree :=
  match x with
  | XElem n a ch => XElem n a (GetCanonicalChildren (xpreserves outer a)
      (map (fun c => match c with inl s => inl s | inr e => inr (xcanon (xpreserves outer a) e) end) ch))
  end.
Lemma xcanon_eq p n a ch : xcanon p (XElem n a ch) = XElem n a (map (on_elem (xcanon (xpreserves p a))) (GetCanonicalChildren (xpreserves p a) ch)).
Proof. cbn [xcanon]. f_equal. exact (canonical_map (xcanon (xpreserves p a)) (xpreserves p a) ch). Qed.
Lemma xspace_in a v : xspace a = Some v -> In (space_name, v) a.
Proof. induction a as [|[n w] a IH]; [discriminate|]. cbn. destruct (xname_dec n space_name) as [->|]; [intros [= ->]; now left|right; auto]. Qed.
Lemma xspace_none a : xspace a = None -> ~ In space_name (map fst a).
Proof. induction a as [|[n w] a IH]; [intros _ []|]. cbn. destruct (xname_dec n space_name) as [->|H]; [discriminate|]. intros E [K|K]; [congruence|now apply IH]. Qed.
Lemma xpreserves_keeps p a : xkeeps p a (xpreserves p a).
Proof.
  unfold xpreserves. destruct (xspace a) as [v|] eqn:E.
  - left. exists v. split; [now apply xspace_in|]. apply str_eqb_eq.
  - right. split; [now apply xspace_none|reflexivity].
Qed.
Lemma xspace_perm a b : NoDup (map fst a) -> Permutation a b -> xspace a = xspace b.
Proof.
  intros D P. destruct (xspace a) as [v|] eqn:E, (xspace b) as [w|] eqn:F; [| | |reflexivity].
  - f_equal. apply xspace_in in E, F. apply (Permutation_in _ (Permutation_sym P)) in F. clear -D E F. induction a as [|[n u] a IH]; [destruct E|].
    apply NoDup_cons_iff in D as [D1 D2]. destruct E as [E|E], F as [F|F].
    + congruence.
    + injection E as -> _. destruct D1. now apply (in_map fst) in F.
    + injection F as -> _. destruct D1. now apply (in_map fst) in E.
    + auto.
  - apply xspace_none in F. destruct F. apply xspace_in in E. apply (Permutation_in _ P) in E. now apply (in_map fst) in E.
  - apply xspace_none in E. destruct E. apply xspace_in in F. apply (Permutation_in _ (Permutation_sym P)) in F. now apply (in_map fst) in F.
Qed.
Lemma bound_legal ws p u : Forall legal ws -> bound ws p u -> exists k a, XmlNsSpec.declaration k p /\ In (k, u) a /\ legal a.
Proof.
  intros H B. induction B as [a up k p u Hk K|a up p u N B IH]; apply Forall_cons_iff in H as [Ha H].
  - exists k, a. auto.
  - now apply IH.
Qed.
Lemma resolves_space sc k n : Forall legal sc -> resolves sc false k n -> k = lit "xml:space" <-> n = space_name.
Proof.
  intros L R. assert (X : lit "xml:space" = lit "xml" ++ colon ++ lit "space") by reflexivity. inversion R; subst.
  - split; [|intros [= ->]; reflexivity]. intros E. apply app_inv_head with (l := lit "xml:") in E. now subst.
  - split.
    + rewrite X. intros E. apply colon_split in E as [E _]; [congruence| |apply xml_ncname].
      match goal with H : ncname p |- _ => apply H end.
    + intros [= -> ->]. match goal with H : bound sc p xml_uri |- _ => apply (bound_legal _ _ _ L) in H as (k & a & Hk & Hi & Ha) end.
      destruct (Ha _ _ _ Hk Hi) as (_ & _ & (_ & Hx) & _). now specialize (Hx eq_refl).
  - split; [|discriminate]. intros ->. match goal with H : ncname _ |- _ => destruct H as [_ H]; destruct H end. vm_compute. tauto.
Qed.
Lemma preserves_meant sc a xa p : Forall legal sc -> attributes_mean sc a xa -> preserves p a = xpreserves p xa.
Proof.
  intros L H. unfold preserves, xpreserves. assert (E : lookup xml_space_attr a = xspace xa); [|now rewrite E].
  induction H as [|k q v l x Hk H IH|k n v l x Hk R H IH]; [reflexivity| |].
  - cbn [lookup]. destruct (str_eqb xml_space_attr k) eqn:F; [|exact IH]. apply str_eqb_eq in F. subst k.
    destruct Hk as [[Hk _]|[Hk _]]; discriminate Hk.
  - cbn [lookup xspace]. pose proof (resolves_space sc k n L R) as S. destruct (xname_dec n space_name) as [->|N].
    + rewrite (proj2 S eq_refl). change (lit "xml:space") with xml_space_attr. now rewrite str_eqb_refl.
    + destruct (str_eqb xml_space_attr k) eqn:F; [|exact IH]. apply str_eqb_eq in F. destruct N. apply S. now symmetry.
Qed.
Lemma nodes_pairs sc ch xch : nodes_mean sc ch xch <-> exists L : list (str + tree * xtree),
  ch = map (on_elem fst) L /\ xch = map (on_elem snd) L /\ forall e y, In (inr (e, y)) L -> means sc e y.
Proof.
  split.
  - intros H. induction H as [sc|sc s l x H IH|sc e y l x M H IH].
    + exists []. split; [reflexivity|]. split; [reflexivity|intros e y []].
    + destruct IH as (L & -> & -> & G). exists (inl s :: L). split; [reflexivity|]. split; [reflexivity|]. intros e y [K|K]; [discriminate|auto].
    + destruct IH as (L & -> & -> & G). exists (inr (e, y) :: L). split; [reflexivity|]. split; [reflexivity|]. intros e' y' [K|K]; [injection K as <- <-; exact M|auto].
  - intros (L & -> & -> & G). induction L as [|[s|[e y]] L IH]; cbn; constructor; try (apply IH; intros e' y' K; apply G; now right). apply G. now left.
Qed.
Lemma means_canon t : forall ws x p, Forall legal ws -> means ws t x -> means ws (canonq p t) (xcanon p x).
Proof.
  induction t as [q a ch IH] using tree_induct. intros ws x p L H. inversion H as [ws' q' n a' xa ch' xch Hk Hl Hr Ha Hd Hn]; subst.
  assert (L' : Forall legal (a :: ws)) by now constructor.
  rewrite canonq_eq, xcanon_eq, <- (preserves_meant _ _ _ p L' Ha). apply me_elem; auto. set (p' := preserves p a).
  apply nodes_pairs in Hn as (P & -> & -> & G). apply nodes_pairs. rewrite !canonical_map.
  exists (map (on_elem (fun e => (canonq p' (fst e), xcanon p' (snd e)))) (GetCanonicalChildren p' P)).
  rewrite !map_on_comp. split; [reflexivity|]. split; [reflexivity|]. intros e y K. apply in_map_iff in K as ([s|[e' y']] & E & K); [discriminate|].
  injection E as <- <-. apply children_in in K. cbn [fst snd]. apply IH; [|exact L'|now apply G]. apply in_map_iff. exists (inr (e', y')). auto.
Qed.
Lemma xcanonical_map p (f g : nelem -> xtree) l : (forall e, In (inr e) l -> xcanonical p (f e) (g e)) -> xcanonical_nodes p (map (on_elem f) l) (map (on_elem g) l).
Proof.
  induction l as [|[s|e] l IH]; intros H; cbn; constructor; try (apply IH; intros x K; apply H; now right). apply H. now left.
Qed.
Lemma sorted_canonical t : proper t -> forall p, xcanonical p (expanded t) (xcanon p (xsorted t)).
Proof.
  induction t as [ns n a m ch IH] using nelem_induct. intros H p. apply throughout_in in H as [(_ & _ & Hd & _ & Hs & _) He].
  rewrite expanded_eq, xsorted_eq, xcanon_eq.
  assert (P : Permutation (map meant a) (map meant (sort_keys a))) by (apply Permutation_map; symmetry; apply sort_keys_perm).
  assert (D : NoDup (map fst (map meant a))) by now rewrite map_map.
  assert (E : xpreserves p (map meant (sort_keys a)) = xpreserves p (map meant a)) by (unfold xpreserves; now rewrite (xspace_perm _ _ D P)).
  rewrite E. set (q := xpreserves p (map meant a)). apply xc_elem with q; [apply xpreserves_keeps|exact P|].
  assert (C : (if q then map (on_elem expanded) ch else canonical_list (map (on_elem expanded) ch)) = map (on_elem expanded) (GetCanonicalChildren q ch)).
  { rewrite <- canonical_map. destruct q; [now destruct (map (on_elem expanded) ch)|]. symmetry. apply canonical_children. apply apart_cases. now apply apart_map. }
  rewrite C, canonical_map, map_on_comp. apply xcanonical_map. intros e K. apply children_in in K. apply IH; [exact K|now apply He].
Qed.
