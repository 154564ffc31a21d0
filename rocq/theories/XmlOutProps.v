(** Theorems about writing and comparing XML elements. *)
From Coq Require Import List ZArith Bool Lia.
From Verif Require Import Py XmlChars XmlCharsProofs XmlDoc XmlDocSpec XmlDocProofs XmlDocProofs2 XmlDocProofs3 XmlDocProofs4 XmlDocProofs5.
From Verif Require Import XmlOut XmlOutSpec XmlOutProofs XmlOutProofs2 XmlOutProofs3.
From Verif Require XmlDocProps XmlCharsSpec.
Import XmlCharsSpec.
Open Scope Z_scope.
Open Scope list_scope.

(** The two functions that escape *)
Definition escaping (esc : str -> bool -> str) : Prop := esc = EscapeCharData \/ esc = EscapeCharData7.
Lemma escaping_faithful esc : escaping esc -> faithful esc.
Proof. intros [->| ->]; [apply faithful_esc|apply faithful_esc7]. Qed.

(** ** C194: what is written is read again *)
(** Full property: for every element, what is written is a document that, read again, gives an equal element.
    Missing: tabs and line ends in values of attributes come back as spaces. *)
Theorem C194_partial esc tab t fuel : escaping esc -> writable t -> one_line t ->
  (length (GenerateDocument esc tab t) < fuel)%nat ->
  exists u, Read fuel (GenerateDocument esc tab t) = Ok u /\ canonical false t u /\ Compare false t false u = Eq.
Proof.
  intros He Hw Ho Hf. apply escaping_faithful in He. exists (canon false t). pose proof (every_tidy _ _ _ _ Hw) as Ht. split.
  - apply (XmlDocProps.C190_partial (GenerateDocument esc tab t)); [|now apply document_opened|exact Hf].
    rewrite <- (flat_same t Ho) at 2. now apply document_written.
  - split; [now apply canon_canonical|]. rewrite Compare_canon, canon_canon by exact Ht. now apply tree_cmp_eq.
Qed.
(** With tabs and line ends: the element with spaces in their place is read. *)
Theorem C194_spaces esc tab t fuel : escaping esc -> writable t ->
  (length (GenerateDocument esc tab t) < fuel)%nat ->
  exists u, Read fuel (GenerateDocument esc tab t) = Ok u /\ canonical false (flat t) u /\ Compare false (flat t) false u = Eq.
Proof.
  intros He Hw Hf. apply escaping_faithful in He. exists (canon false (flat t)). pose proof (flat_tidy t (every_tidy _ _ _ _ Hw)) as Ht. split.
  - apply (XmlDocProps.C190_partial (GenerateDocument esc tab t)); [|now apply document_opened|exact Hf]. now apply document_written.
  - split; [now apply canon_canonical|]. rewrite Compare_canon, canon_canon by exact Ht. now apply tree_cmp_eq.
Qed.
(** What is written is XML. *)
Theorem C194_well_formed esc tab t : escaping esc -> writable t ->
  exists u, well_formed (GenerateDocument esc tab t) u /\ canonical false (flat t) u.
Proof.
  intros He Hw. apply escaping_faithful in He. exists (canon false (flat t)). split.
  - apply XmlDocProps.C190_plain_is_xml with (start := not_declared); [|now apply document_written].
    eapply Forall_impl; [|exact (document_fine esc He tab t Hw)]. intros c H. apply H.
  - apply canon_canonical, flat_tidy. now apply every_tidy in Hw.
Qed.

(** Writing again what was read gives the same text. *)
Theorem C194_again esc esc' tab tab' t fuel u : escaping esc -> escaping esc' -> writable t -> one_line t ->
  Read fuel (GenerateDocument esc tab t) = Ok u -> GenerateDocument esc' tab' u = GenerateDocument esc' tab' t.
Proof.
  intros He He' Hw Ho Hu. assert (Hf : exists f, Read f (GenerateDocument esc tab t) = Ok u) by eauto.
  apply XmlDocProps.C189_read in Hf as (d & Hd & Hr).
  pose proof (document_opened esc (escaping_faithful esc He) tab t Hw) as Ho'.
  assert (d = GenerateDocument esc tab t) as -> by (apply opened_iff in Hd, Ho'; congruence).
  assert (Hr' : readable (GenerateDocument esc tab t) (canon false t)).
  { apply plain_readable. rewrite <- (flat_same t Ho) at 2. apply document_written; [now apply escaping_faithful|exact Hw]. }
  rewrite (XmlDocProps.C189_one_tree _ _ _ Hr Hr'). apply escaping_faithful in He'.
  rewrite !document_eq, generate_canon; [reflexivity|]. now apply every_tidy in Hw.
Qed.
(** With EscapeCharData7 the document is ASCII if its names are. *)
Lemma ascii_by s : forallb (fun c => (0 <=? c) && (c <=? 127)) s = true -> ascii s.
Proof. intros H. apply Forall_forall. intros c Hc. rewrite forallb_forall in H. apply H in Hc. lia. Qed.
Lemma esc7_chars s b : Forall char s -> ascii (EscapeCharData7 s b).
Proof. intros H. apply EscapeCharData7_ascii. eapply Forall_impl; [|exact H]. intros c. unfold char. lia. Qed.
Lemma generate_ascii t : writable t -> ascii_names t -> forall p, ascii (GenerateXML EscapeCharData7 p [] t).
Proof.
  induction t as [n a ch IH] using tree_induct. intros H G p. apply every_in in H as (_ & Hd & Ha & Hs & Ht & He).
  apply every_in in G as (Gn & _ & Ga & _ & _ & Ge). rewrite generate_eq. set (q := preserves p a).
  assert (C : ascii (flat_map (put EscapeCharData7) (map (on_elem (GenerateXML EscapeCharData7 q [])) (GetCanonicalChildren q ch)))).
  { apply Forall_forall. intros c Hc. apply in_flat_map in Hc as (x & K & Hc). apply in_map_iff in K as ([s|e] & <- & K); cbn [on_elem put] in Hc.
    - revert c Hc. apply Forall_forall. apply esc7_chars. eapply canon_texts; eauto.
    - revert c Hc. apply Forall_forall. apply (canon_in q ch Hs) in K. apply IH; [exact K|now apply He|now apply Ge]. }
  assert (A : ascii (WriteXMLAttributes EscapeCharData7 a)).
  { apply Forall_forall. intros c Hc. unfold WriteXMLAttributes in Hc. apply in_flat_map in Hc as ([k v] & K & Hc).
    apply (Permutation.Permutation_in _ (sort_perm a)) in K. revert c Hc. apply Forall_forall. rewrite !Forall_app.
    split; [now apply ascii_by|]. split; [exact (Ga k v K)|]. split; [now apply ascii_by|]. apply esc7_chars. now apply (Ha k v). }
  unfold ascii in *. destruct (map _ _); rewrite !Forall_app; repeat split; auto; apply ascii_by; reflexivity.
Qed.
Theorem C194_ascii tab t : writable t -> ascii_names t -> ascii (GenerateDocument EscapeCharData7 tab t).
Proof.
  intros H G. rewrite document_eq. unfold ascii. rewrite !Forall_app. split; [now apply ascii_by|]. split; [now apply ascii_by|].
  now apply generate_ascii.
Qed.

Definition sample : tree := Elem (lit "a") [(lit "y", lit "1<2"); (lit "x", lit "it's")]
  [inl (lit "  p" ++ [13; 10] ++ lit "q "); inr (Elem (lit "b") [(lit "xml:space", lit "preserve")] [inl (lit "  ")]); inl [10]].
Lemma writable_by n a ch : IsValidName n = true -> dictionary a ->
  forallb (fun '(k, v) => IsValidName k && forallb (fun c => (32 <=? c) && (c <=? 126)) v) a = true ->
  separate ch -> (forall s, In (inl s) ch -> forallb (fun c => (32 <=? c) && (c <=? 126) || (c =? 10) || (c =? 13)) s = true) ->
  (forall e, In (inr e) ch -> writable e /\ one_line e) -> writable (Elem n a ch) /\ one_line (Elem n a ch).
Proof.
  intros Hn Hd Ha Hs Ht He. rewrite forallb_forall in Ha. split; constructor; auto; try (intros e K; now apply He).
  - now apply bmp_name_iff.
  - intros k v K. apply Ha in K. apply andb_true_iff in K as [K1 K2]. split; [now apply bmp_name_iff|].
    apply Forall_forall. intros c Hc. rewrite forallb_forall in K2. apply K2 in Hc. unfold char. lia.
  - intros s K. apply Ht in K. apply Forall_forall. intros c Hc. rewrite forallb_forall in K. apply K in Hc. unfold char. lia.
  - intros k v K. apply Ha in K. apply andb_true_iff in K as [_ K2]. rewrite forallb_forall in K2.
    split; intros G; apply K2 in G; discriminate G.
Qed.
Example C194_ascii_nonvacuous : ascii_names (Elem (lit "a") [] [inl [0x20AC]]) /\
  GenerateDocument EscapeCharData7 false (Elem (lit "a") [] [inl [0x20AC]]) =
    lit "<?xml version=""1.0"" encoding=""UTF-8""?>" ++ [10] ++ lit "<a>&#x20AC;</a>".
Proof.
  split; [|vm_compute; reflexivity]. constructor; auto.
  - now apply ascii_by.
  - constructor.
  - intros k v [].
  - now constructor.
  - intros e [K|[]]. discriminate K.
Qed.
Example C194_nonvacuous : writable sample /\ one_line sample /\
  GenerateDocument EscapeCharData true sample =
    lit "<?xml version=""1.0"" encoding=""UTF-8""?>" ++ [10] ++
    lit "<a x=""it's"" y=""1&lt;2"">p q <b xml:space=""preserve"">  </b></a>".
Proof.
  assert (H : writable sample /\ one_line sample).
  { apply writable_by; [reflexivity| |reflexivity| | |].
    - unfold dictionary. cbn. repeat constructor; cbn; intuition discriminate.
    - apply se_both; [discriminate|]. apply se_text. discriminate.
    - intros s [K|[K|[K|[]]]]; try discriminate K; injection K as <-; reflexivity.
    - intros e [K|[K|[K|[]]]]; try discriminate K. injection K as <-. apply writable_by; [reflexivity| |reflexivity| | |].
      + unfold dictionary. cbn. repeat constructor; cbn; intuition discriminate.
      + apply se_text. discriminate.
      + intros s [K|[]]. injection K as <-. reflexivity.
      + intros x [K|[]]. discriminate K. }
  destruct H as [H1 H2]. split; [exact H1|]. split; [exact H2|]. vm_compute. reflexivity.
Qed.
(** A line end in a value: what is read is another element. *)
Definition broken_value : tree := Elem (lit "a") [(lit "b", [10])] [].
Theorem C194_refuted : writable broken_value /\ forall esc tab fuel, escaping esc ->
  (length (GenerateDocument esc tab broken_value) < fuel)%nat ->
  Read fuel (GenerateDocument esc tab broken_value) = Ok (Elem (lit "a") [(lit "b", [32])] []) /\
  Compare false broken_value false (Elem (lit "a") [(lit "b", [32])] []) = Lt.
Proof.
  assert (W : writable broken_value).
  { constructor; [now apply bmp_name_iff| | |constructor|intros s []|intros e []].
    - unfold dictionary. cbn. repeat constructor. intros [].
    - intros k v [K|[]]. injection K as <- <-. split; [now apply bmp_name_iff|]. constructor; [unfold char; lia|constructor]. }
  split; [exact W|]. intros esc tab fuel He Hf. split; [|vm_compute; reflexivity].
  apply escaping_faithful in He.
  apply (XmlDocProps.C190_partial (GenerateDocument esc tab broken_value)); [|now apply document_opened|exact Hf].
  exact (document_written esc He tab broken_value W).
Qed.

(** ** C195: comparing elements *)
Theorem C195_equal o t o' t' : tidy t -> tidy t' ->
  (Compare o t o' t' = Eq <-> exists u, canonical o t u /\ canonical o' t' u).
Proof.
  intros H H'. rewrite Compare_canon, tree_cmp_eq. split.
  - intros E. exists (canon o t). split; [now apply canon_canonical|]. rewrite E. now apply canon_canonical.
  - intros (u & G & G'). apply canonical_canon in G, G'; try assumption. congruence.
Qed.
Theorem C195_order o t o' t' : tidy t -> tidy t' ->
  (Compare o t o' t' = Lt <-> exists u u', canonical o t u /\ canonical o' t' u' /\ before u u').
Proof.
  intros H H'. rewrite Compare_canon, before_lt. split.
  - intros E. exists (canon o t), (canon o' t'). split; [now apply canon_canonical|]. split; [now apply canon_canonical|exact E].
  - intros (u & u' & G & G' & E). apply canonical_canon in G, G'; try assumption. congruence.
Qed.
Theorem C195_one_form o t : tidy t -> exists! u, canonical o t u.
Proof. intros H. exists (canon o t). split; [now apply canon_canonical|]. intros u G. symmetry. now apply canonical_canon. Qed.
(** Whatever the elements, also with texts side by side *)
Theorem C195_opposite o t o' t' : Compare o' t' o t = CompOpp (Compare o t o' t').
Proof. rewrite !Compare_canon. apply tree_cmp_opp. Qed.
Theorem C195_self o t : Compare o t o t = Eq.
Proof. rewrite Compare_canon. now apply tree_cmp_eq. Qed.
Theorem C195_transitive o t o' t' o2 t2 :
  (Compare o t o' t' = Lt -> Compare o' t' o2 t2 = Lt -> Compare o t o2 t2 = Lt) /\
  (Compare o t o' t' = Eq -> Compare o t o2 t2 = Compare o' t' o2 t2).
Proof.
  rewrite !Compare_canon. split; [apply tree_cmp_trans|]. intros E. apply tree_cmp_eq in E. now rewrite E.
Qed.
Example C195_nonvacuous : tidy sample /\
  Compare false sample false (Elem (lit "a") [(lit "x", lit "it's"); (lit "y", lit "1<2")]
    [inl (lit "p  q "); inr (Elem (lit "b") [(lit "xml:space", lit "preserve")] [inl (lit "  ")])]) = Eq /\
  Compare false sample false (Elem (lit "a") [(lit "x", lit "it's"); (lit "y", lit "1<2")]
    [inl (lit "p  q "); inr (Elem (lit "b") [(lit "xml:space", lit "preserve")] [inl (lit " ")])]) = Gt.
Proof. split; [apply (every_tidy _ _ _ _ (proj1 C194_nonvacuous))|]. split; vm_compute; reflexivity. Qed.

(** ** C196: canonical children *)
(** Full property: the canonical children are those of the specification, whatever the children. *)
Theorem C196_partial {E} (l : list (str + E)) : (length l <= 1)%nat \/ (exists e, In (inr e) l) ->
  GetCanonicalChildren false l = canonical_list l.
Proof. apply canonical_children. Qed.
Theorem C196_preserved {E} (l : list (str + E)) : GetCanonicalChildren true l = l.
Proof. destruct l; reflexivity. Qed.
(** Once is enough. *)
Theorem C196_again p l : separate l -> GetCanonicalChildren p (GetCanonicalChildren p l) = GetCanonicalChildren p l.
Proof. apply canon_idem. Qed.
Example C196_nonvacuous : GetCanonicalChildren false [inl (lit "  a  b "); inr 1; inl (lit " "); inr 2; inl (lit " c "); inl (lit " ")] =
  [inl (lit "a b "); inr 1; inl (lit " "); inr 2; inl (lit " c")].
Proof. vm_compute. reflexivity. Qed.
(** Texts alone, side by side, are not as when they are one; if they are all white space, an empty text comes first. *)
Theorem C196_refuted {E} : 
  GetCanonicalChildren (E := E) false [inl (lit "a"); inl (lit " ")] = [inl (lit "a")] /\
  canonical_list (E := E) [inl (lit "a"); inl (lit " ")] = [inl (lit "a ")] /\
  GetCanonicalChildren (E := E) false [inl (lit " "); inl (lit " ")] = [inl []; inl (lit " ")].
Proof. repeat split; vm_compute; reflexivity. Qed.

Print Assumptions C194_partial.
Print Assumptions C194_spaces.
Print Assumptions C194_well_formed.
Print Assumptions C194_again.
Print Assumptions C194_ascii.
Print Assumptions C194_refuted.
Print Assumptions C195_equal.
Print Assumptions C195_order.
Print Assumptions C195_one_form.
Print Assumptions C195_opposite.
Print Assumptions C195_self.
Print Assumptions C195_transitive.
Print Assumptions C196_partial.
Print Assumptions C196_preserved.
Print Assumptions C196_again.
Print Assumptions C196_refuted.
