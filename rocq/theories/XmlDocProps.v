(** Theorems about reading XML documents. *)
From Coq Require Import List ZArith Bool Lia.
From Verif Require Import Py XmlChars XmlCharsProofs XmlDoc XmlDocSpec XmlDocProofs XmlDocProofs2 XmlDocProofs3 XmlDocProofs4 XmlDocProofs5 XmlDocProofs6.
From Verif Require XmlUtils XmlCharsSpec.
Import XmlCharsSpec.
Open Scope Z_scope.
Open Scope list_scope.

(** ** C189: what is read *)
Theorem C189_read s t : (exists fuel, Read fuel s = Ok t) <-> exists u, opened s u /\ readable u t.
Proof.
  unfold Read. split.
  - intros (f & H). exists (OpenUnicode s). split; [now apply opened_iff|]. now apply document_sound in H.
  - intros (u & H1 & H2). apply opened_iff in H1 as <-. exists (S (length (OpenUnicode s))). apply document_complete; [exact H2|lia].
Qed.
Theorem C189_steps s t fuel : (exists u, opened s u /\ readable u t) -> (length s < fuel)%nat -> Read fuel s = Ok t.
Proof.
  intros (u & H1 & H2) Hf. apply opened_iff in H1 as <-. apply document_complete; [exact H2|]. pose proof (open_length s). lia.
Qed.
Theorem C189_one_tree u t t' : readable u t -> readable u t' -> t = t'.
Proof.
  intros H H'. apply document_complete with (f := S (length u)) in H; [|lia]. apply document_complete with (f := S (length u)) in H'; [|lia]. congruence.
Qed.
Theorem C189_one_text s : exists! u, opened s u.
Proof. exists (OpenUnicode s). split; [now apply opened_iff|]. intros u H. now apply opened_iff. Qed.
Theorem C189_reader r u : rd_char r = match rd_view r with c :: _ => Some c | [] => None end /\
  rd_view (rd_next r) = tl (rd_view r) /\ rd_view (rd_push u r) = u ++ rd_view r.
Proof. split; [apply view_char|]. split; [apply view_next|apply view_push]. Qed.

Definition demo : str := lit "<?xml version='1.0' encoding=""utf-8""?>" ++ [13; 10] ++ lit "<!-- x --><a b=""1&lt;2""><![CDATA[<]]>&#x41; <c/>" ++ [13] ++ lit "d</a>" ++ [10].
Definition demo_tree : tree := Elem (lit "a") [(lit "b", lit "1<2")] [inl (lit "<A "); inr (Elem (lit "c") [] []); inl (10 :: lit "d")].
Example C189_nonvacuous : exists u, opened demo u /\ readable u demo_tree /\ demo_tree <> Elem (lit "a") [] [].
Proof.
  assert (E : exists f, Read f demo = Ok demo_tree) by (exists 200%nat; vm_compute; reflexivity).
  apply C189_read in E as (u & H1 & H2). exists u. split; [exact H1|]. split; [exact H2|discriminate].
Qed.

(** Texts side by side are put together in their order: the characters and elements, one after the other, stay the same. *)
Definition in_order (l : list node) : list (Z + tree) :=
  flat_map (fun n => match n with inl s => map inl s | inr e => [inr e] end) l.
Theorem C189_put_together l : in_order (ContentChanged l) = in_order l /\
  (forall a b x y, ContentChanged l <> a ++ inl x :: inl y :: b).
Proof.
  unfold ContentChanged. split.
  - assert (H : forall data, in_order (changed_loop data l) = map inl (concat data) ++ in_order l).
    { induction l as [|[s|e] l IH]; intros data; cbn [changed_loop].
      - destruct data as [|d data]; [reflexivity|]. unfold in_order. cbn [flat_map]. now rewrite !app_nil_r.
      - rewrite IH, concat_app, map_app. cbn [concat]. rewrite app_nil_r, <- app_assoc. reflexivity.
      - destruct data as [|d data]; unfold in_order in *; cbn [flat_map]; rewrite IH; reflexivity. }
    apply (H []).
  - assert (H : forall data, (forall a b x y, changed_loop data l <> a ++ inl x :: inl y :: b)).
    { induction l as [|[s|e] l IH]; intros data a b x y; cbn [changed_loop].
      - destruct data as [|d data]; [now destruct a|]. destruct a as [|? [|? ?]]; discriminate.
      - apply IH.
      - destruct data as [|d data]; intros E.
        + destruct a as [|? a]; [discriminate|]. injection E as _ E. now apply IH in E.
        + destruct a as [|? [|? a]]; [discriminate| |]; injection E; [intros; discriminate|]. intros E' _ _. now apply IH in E'. }
    apply H.
Qed.
Example C189_put_together_nonvacuous :
  ContentChanged [inl (lit "a"); inl (lit "b"); inr (Elem (lit "c") [] []); inl (lit "d")] = [inl (lit "ab"); inr (Elem (lit "c") [] []); inl (lit "d")].
Proof. reflexivity. Qed.

(** ** C190: well-formed documents are read *)
(** Missing: names beyond the basic plane, two question marks side by side in an instruction, and an instruction
    whose target begins with "xml" at the very start. *)
Theorem C190_partial s s' t : document plain not_declared (fun z => z = []) s t -> opened s' s ->
  forall fuel, (length s' < fuel)%nat -> Read fuel s' = Ok t.
Proof. intros H1 H2 fuel Hf. apply C189_steps; [|exact Hf]. exists s. split; [exact H2|]. now apply plain_readable. Qed.
Theorem C190_plain_is_xml s t start : Forall char s -> document plain start (fun z => z = []) s t -> well_formed s t.
Proof. intros H1 H2. split; [exact H1|]. now apply plain_xml10 in H2. Qed.

Lemma chars_by s : forallb (fun c => ((32 <=? c) && (c <=? 126)) || (c =? 65536)) s = true -> Forall char s.
Proof. intros H. apply Forall_forall. intros c Hc. rewrite forallb_forall in H. apply H in Hc. unfold char. lia. Qed.
Lemma name_by n : IsValidName n = true -> name n.
Proof. intros H. apply bmp_name_iff in H. apply H. Qed.
Lemma opened_self s : forallb (fun c => negb (c =? 13) && negb (c =? 0xFEFF)) s = true -> opened s s.
Proof.
  intros H. rewrite forallb_forall in H. exists s. split.
  - assert (forall c, In c s -> c <> 13) as K by (intros c Hc; apply H in Hc; lia). clear H. induction s as [|c s IH]; [constructor|].
    constructor; [apply K; now left|]. apply IH. intros d Hd. apply K. now right.
  - right. split; [reflexivity|]. intros y E. specialize (H 0xFEFF). rewrite E in H. discriminate H. now left.
Qed.
Lemma plain_element n : name n -> element xml10 (lit "<" ++ n ++ [] ++ lit "/>") (Elem n [] []).
Proof. intros H. apply el_empty; [exact H|constructor; constructor|constructor]. Qed.
Lemma instruction_by n sp d : IsValidName n = true -> spaces1 sp -> str_eqb (map lower1 n) (lit "xml") = false ->
  no_end d -> (forall c d', d = c :: d' -> ~ xml_space c) -> instruction name no_end (lit "<?" ++ n ++ sp ++ d ++ lit "?>").
Proof. intros H1 H2 H3 H4 H5. exists n. split; [now apply name_by|]. split; [now apply lower_xml|]. right. exists sp, d. fin. Qed.
Lemma no_end_by d : forallb (fun c => negb (c =? 62)) d = true -> no_end d.
Proof. intros H x y ->. rewrite !forallb_app in H. cbn in H. rewrite andb_false_r in H. discriminate. Qed.

(** Two question marks: an instruction is not closed where it ends, so the element after it is lost without notice. *)
Definition lost : str := lit "<a><?p ??><b/><?q?></a>".
Theorem C190_refuted : exists t, well_formed lost t /\ opened lost lost /\
  Read 100 lost = Ok (Elem (lit "a") [] []) /\ t <> Elem (lit "a") [] [].
Proof.
  exists (Elem (lit "a") [] [inr (Elem (lit "b") [] [])]). split; [split; [now apply chars_by|]|split; [now apply opened_self|split; [vm_compute; reflexivity|discriminate]]].
  exists [], [], lost, [], []. split; [reflexivity|]. split; [left; now split|]. split; [constructor|]. split; [|split; [constructor|reflexivity]].
  apply (el_full xml10 (lit "a") [] [] (lit "<?p ??>" ++ (lit "<" ++ lit "b" ++ [] ++ lit "/>") ++ lit "<?q?>" ++ []) _ []); try (now apply name_by).
  - constructor. constructor.
  - constructor.
  - apply co_pi.
    { apply (instruction_by (lit "p") (lit " ") (lit "?")); [reflexivity| |reflexivity|now apply no_end_by|].
      - split; [discriminate|]. repeat constructor.
      - intros c d' [= <- _]. unfold xml_space. lia. }
    apply co_element; [now apply plain_element, name_by|]. apply co_pi; [|constructor].
    exists (lit "q"). split; [now apply name_by|]. split; [now apply lower_xml|now left].
  - constructor.
Qed.
(** A name beyond the basic plane, and an instruction at the start, are refused. *)
Theorem C190_refused : 
  (exists t, well_formed ([60; 0x10000] ++ lit "/>") t) /\ (forall fuel, (0 < fuel)%nat -> Read fuel ([60; 0x10000] ++ lit "/>") = Err XMLFatalError) /\
  (exists t, well_formed (lit "<?xml-style a?><b/>") t) /\ (forall fuel, Read fuel (lit "<?xml-style a?><b/>") = Err XMLFatalError).
Proof.
  split; [|split; [|split]].
  - exists (Elem [0x10000] [] []). split; [now apply chars_by|]. exists [], [], ([60; 0x10000] ++ lit "/>"), [], []. split; [reflexivity|]. split; [left; now split|].
    split; [constructor|]. split; [|split; [constructor|reflexivity]]. apply (plain_element [0x10000]). exists 0x10000, []. split; [reflexivity|]. split; [unfold name_start_char; lia|constructor].
  - intros [|f] H; [lia|]. reflexivity.
  - exists (Elem (lit "b") [] []). split; [now apply chars_by|]. exists [], (lit "<?xml-style a?>" ++ []), (lit "<b/>"), [], []. split; [reflexivity|]. split; [left; now split|].
    split; [|split; [now apply (plain_element (lit "b")), name_by|split; [constructor|reflexivity]]]. apply mi_pi; [|constructor].
    apply (instruction_by (lit "xml-style") (lit " ") (lit "a")); [reflexivity| |reflexivity|now apply no_end_by|].
    + split; [discriminate|]. repeat constructor.
    + intros c d' [= <- _]. unfold xml_space. lia.
  - intros f. reflexivity.
Qed.
Example C190_nonvacuous : exists t, document plain not_declared (fun z => z = []) (lit "<?xml version='1.0'?><!--c--><a><?p q?></a>") t /\
  Forall char (lit "<?xml version='1.0'?><!--c--><a><?p q?></a>").
Proof.
  exists (Elem (lit "a") [] []). split; [|now apply chars_by].
  exists (lit "<?xml version='1.0'?>"), (lit "<!--c-->" ++ []), (lit "<a><?p q?></a>"), [], [].
  assert (B : forall n, IsValidName n = true -> bmp_name n) by (intros; now apply bmp_name_iff).
  assert (S1 : spaces1 (lit " ")) by (split; [discriminate|repeat constructor]).
  split; [reflexivity|]. split; [right|split; [|split; [|split; [constructor|reflexivity]]]].
  - exists (lit " version='1.0'"), [], [], []. split; [|split; [now left|split; [now left|split; [constructor|reflexivity]]]].
    exists (lit " "), (lit "="), (lit "'1.0'"). split; [exact S1|]. split; [exists [], []; repeat split; constructor|]. split; [|reflexivity].
    exists 39, (lit "1.0"). split; [now right|]. split; [|reflexivity]. exists (lit "0"). split; [discriminate|]. split; [|reflexivity]. change (lit "0") with [48]; constructor; [unfold dec_digit; lia|constructor].
  - apply mi_comment; [|constructor]. exists (lit "c"). split; [|reflexivity]. constructor; [discriminate|constructor].
  - apply (el_full plain (lit "a") [] [] (lit "<?p q?>" ++ []) [] []); try (now apply B); try (repeat constructor; fail).
    apply co_pi; [|constructor]. exists (lit "p"). split; [now apply B|]. split; [now apply lower_xml|]. right. exists (lit " "), (lit "q").
    split; [exact S1|]. split; [split; [now apply no_end_by|]|split; [|reflexivity]].
    + intros x y E. destruct x as [|a [|b [|c x]]]; try discriminate E.
    + intros c d' [= <- _]. unfold xml_space. lia.
Qed.

(** ** C191: what is read is well-formed *)
(** Missing: an unfinished comment or instruction at the end, white space between the "--" and the ">" of a comment,
    two question marks side by side, and characters that XML does not allow. *)
Theorem C191_partial fuel s t : Read fuel s = Ok t -> exists d z, opened s (d ++ z) /\ unfinished z /\
  (Forall char d -> clean d -> well_formed d t).
Proof.
  intros H. assert (exists u, opened s u /\ readable u t) as (u & H1 & H2) by (apply C189_read; eauto).
  destruct (clean_xml10 u t H2) as (d & z & -> & H3 & H4). now exists d, z.
Qed.
Lemma document_last s t : document xml10 (fun _ => True) (fun z => z = []) s t -> exists s' c, s = s' ++ [c] /\ (c = 62 \/ xml_space c).
Proof.
  intros (x & m1 & w & m2 & z & -> & _ & _ & Hw & H2 & ->). rewrite app_nil_r.
  assert (A : exists w' c, w = w' ++ [c] /\ (c = 62 \/ xml_space c)).
  { destruct Hw as [n a m|n a m w' l sp].
    - exists (lit "<" ++ n ++ m ++ lit "/"), 62. split; [rewrite <- !app_assoc; reflexivity|now left].
    - exists (lit "<" ++ n ++ m ++ lit ">" ++ w' ++ lit "</" ++ n ++ sp), 62. split; [rewrite <- !app_assoc; reflexivity|now left]. }
  assert (B : m2 = [] \/ exists w' c, m2 = w' ++ [c] /\ (c = 62 \/ xml_space c)).
  { induction H2 as [|c m H _ IH|y m H _ IH|y m H _ IH]; [now left| | |]; right.
    - destruct IH as [->|(w' & c' & -> & K)]; [exists [], c; auto|]. exists (c :: w'), c'. now split.
    - destruct IH as [->|(w' & c' & -> & K)]; [|exists (y ++ w'), c'; split; [now rewrite app_assoc|exact K]].
      destruct H as (d & _ & ->). exists (lit "<!--" ++ d ++ lit "--"), 62. split; [rewrite app_nil_r, <- !app_assoc; reflexivity|now left].
    - destruct IH as [->|(w' & c' & -> & K)]; [|exists (y ++ w'), c'; split; [now rewrite app_assoc|exact K]].
      destruct H as (n & _ & _ & [->|(sp & d & _ & _ & _ & ->)]).
      + exists (lit "<?" ++ n ++ lit "?"), 62. split; [rewrite app_nil_r, <- !app_assoc; reflexivity|now left].
      + exists (lit "<?" ++ n ++ sp ++ d ++ lit "?"), 62. split; [rewrite app_nil_r, <- !app_assoc; reflexivity|now left]. }
  destruct B as [->|(w' & c & -> & K)].
  - destruct A as (w' & c & -> & K). exists (x ++ m1 ++ w'), c. split; [rewrite app_nil_r, <- !app_assoc; reflexivity|exact K].
  - exists (x ++ m1 ++ w ++ w'), c. split; [rewrite <- !app_assoc; reflexivity|exact K].
Qed.
Theorem C191_refuted :
  (exists t, Read 100 (lit "<a/><!-- not closed") = Ok t /\ ~ well_formed (lit "<a/><!-- not closed") t) /\
  (exists t, Read 100 (lit "<a>" ++ [1] ++ lit "</a>") = Ok t /\ ~ well_formed (lit "<a>" ++ [1] ++ lit "</a>") t).
Proof.
  split.
  - exists (Elem (lit "a") [] []). split; [vm_compute; reflexivity|]. intros [_ H]. apply document_last in H as (s' & c & E & K).
    change (lit "<a/><!-- not closed") with (lit "<a/><!-- not close" ++ [100]) in E. apply app_inj_tail in E as [_ <-]. unfold xml_space in K. lia.
  - exists (Elem (lit "a") [] [inl [1]]). split; [vm_compute; reflexivity|]. intros [H _]. rewrite Forall_forall in H. specialize (H 1). unfold char in H.
    assert (In 1 (lit "<a>" ++ [1] ++ lit "</a>")) as K by (cbn; tauto). apply H in K. lia.
Qed.
Lemma clean_by s : forallb (fun c => negb (c =? 45) && negb (c =? 63)) s = true -> clean s.
Proof. intros H. rewrite forallb_forall in H. split.
  - intros x sp y ->. specialize (H 45). discriminate H. rewrite !in_app_iff. cbn. tauto.
  - intros x y ->. specialize (H 63). discriminate H. rewrite !in_app_iff. cbn. tauto.
Qed.
Example C191_nonvacuous : exists t, Read 100 (lit "<a b='x'>1 &lt; 2<![CDATA[<]]><d/></a>") = Ok t /\ clean (lit "<a b='x'>1 &lt; 2<![CDATA[<]]><d/></a>") /\
  Forall char (lit "<a b='x'>1 &lt; 2<![CDATA[<]]><d/></a>").
Proof. eexists. split; [vm_compute; reflexivity|]. split; [now apply clean_by|now apply chars_by]. Qed.

(** ** C192: reading ends *)
(** The number of steps allowed does not matter beyond the length of the text: reading has ended by then, or never ends. *)
Theorem C192_length s fuel : (length s < fuel)%nat ->
  (Read fuel s <> Err OutOfFuel /\ forall more, (fuel <= more)%nat -> Read more s = Read fuel s) \/ forall any, Read any s = Err OutOfFuel.
Proof.
  intros Hf. unfold Read. pose proof (open_length s) as L. destruct (ParseDocument fuel (OpenUnicode s)) as [t|e] eqn:E.
  - left. split; [discriminate|]. intros more Hm. rewrite (document_finer fuel more) by (exact Hm || (rewrite E; discriminate)). exact E.
  - assert (e = OutOfFuel \/ e <> OutOfFuel) as [->|N] by (destruct e; (left; reflexivity) || (right; discriminate)).
    + right. apply document_stuck in E as [E _]; [exact E|lia].
    + left. split; [congruence|]. intros more Hm. rewrite (document_finer fuel more) by (exact Hm || (rewrite E; unfold ends; congruence)). exact E.
Qed.
(** Missing: texts with a "]]>". *)
Theorem C192_partial s u : opened s u -> ~ has (lit "]]>") u -> forall fuel, (length s < fuel)%nat -> Read fuel s <> Err OutOfFuel.
Proof.
  intros H1 H2 fuel Hf E. unfold Read in E. apply opened_iff in H1 as <-. pose proof (open_length s) as L. apply document_stuck in E as [_ E]; [|lia]. now apply H2.
Qed.
Theorem C192_refuted : forall fuel, Read fuel (lit "<a>]]></a>") = Err OutOfFuel.
Proof.
  destruct (C192_length (lit "<a>]]></a>") 20%nat) as [[H _]|H]; [vm_compute; lia| |exact H]. exfalso. apply H. vm_compute. reflexivity.
Qed.
Example C192_nonvacuous : let s := lit "<a b='1'>x<c>&lt;</c" in opened s s /\ ~ has (lit "]]>") s /\ Read 50 s = Err XMLFatalError.
Proof.
  cbv zeta. split; [now apply opened_self|]. split; [|vm_compute; reflexivity]. intros (x & y & E).
  assert (In 93 (lit "<a b='1'>x<c>&lt;</c")) as K by (rewrite E, !in_app_iff; cbn; tauto). revert K. vm_compute. intuition discriminate.
Qed.

(** ** C193: what a refused document raises *)
(** Missing: character references beyond the characters, and instructions without target or cut after a question mark. *)
Theorem C193_partial s u fuel e : opened s u -> Read fuel s = Err e -> e <> OutOfFuel ->
  e = XMLFatalError \/ (e = Unmodelled /\ has (lit "<!DOCTYPE") u) \/
  ((e = ValueError \/ e = OverflowError) /\ has (lit "&#") u) \/ ((e = AttributeError \/ e = TypeError) /\ has (lit "<?") u).
Proof.
  intros H1 H2 N. unfold Read in H2. apply opened_iff in H1 as <-. apply fails_document in H2. destruct H2 as [H|[H|H]]; [now left|contradiction|now right].
Qed.
Theorem C193_refused s u fuel : opened s u -> (forall t, ~ readable u t) -> exists e, Read fuel s = Err e.
Proof.
  intros H1 H2. destruct (Read fuel s) as [t|e] eqn:E; [|eauto]. exfalso. apply (H2 t). apply opened_iff in H1 as <-. now apply document_sound in E.
Qed.
Theorem C193_refuted : forall fuel, (5 < fuel)%nat ->
  Read fuel (lit "<a>&#x110000;</a>") = Err ValueError /\ Read fuel (lit "<a>&#4294967296;</a>") = Err OverflowError /\
  Read fuel (lit "<? a?><a/>") = Err AttributeError /\ Read fuel (lit "<a><?b c?") = Err TypeError.
Proof. intros fuel H. do 6 (destruct fuel as [|fuel]; [lia|]). repeat split. Qed.
Example C193_nonvacuous : Read 20 (lit "<a><b></a>") = Err XMLFatalError /\ opened (lit "<a><b></a>") (lit "<a><b></a>").
Proof. split; [vm_compute; reflexivity|now apply opened_self]. Qed.

Print Assumptions C189_read.
Print Assumptions C189_steps.
Print Assumptions C189_one_tree.
Print Assumptions C189_one_text.
Print Assumptions C189_reader.
Print Assumptions C189_put_together.
Print Assumptions C190_partial.
Print Assumptions C190_plain_is_xml.
Print Assumptions C190_refuted.
Print Assumptions C190_refused.
Print Assumptions C191_partial.
Print Assumptions C191_refuted.
Print Assumptions C192_length.
Print Assumptions C192_partial.
Print Assumptions C192_refuted.
Print Assumptions C193_partial.
Print Assumptions C193_refused.
Print Assumptions C193_refuted.
