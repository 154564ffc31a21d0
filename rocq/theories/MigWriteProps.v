(** Properties of QTIMigration/lib/imsqti.py: C129 and C130. *)
From Coq Require Import Permutation Sorted.
From Verif Require Import Py Iso Dec XmlUtils XmlSpec XmlProofs XmlProofs2 MigWrite MigWriteSpec MigWriteProofs
  MigWriteProofs2 MigWriteProofs3.

(** C129: the file written for an item is well-formed XML, in ASCII, for the document the
    item stands for, and reads back as that document; _partial: for items the writer can
    express ([item_expressible]), whose texts are [clean], and with the coordinates of
    areas in expressions separated by spaces (32) instead of commas. *)
Theorem C129_item_partial i x : item_expressible i -> item_tree 32 i x -> clean x ->
  exists w ts, WriteItem i = Ok w /\ markup [x] w /\ Forall (fun c => 0 <= c < 128) w /\
    TokenizeString w = Ok ts /\ flat_map token_events ts = events x.
Proof.
  intros H1 H2 H3. destruct (WriteItem_good i x H1 H2 H3) as (w & E & M & A).
  destruct (markup_read _ _ M) as (ts & T & V). exists w, ts. cbn [flat_map] in V. rewrite app_nil_r in V. auto.
Qed.
Print Assumptions C129_item_partial.
(** The document of an item exists and is unique. *)
Theorem C129_document i sep : item_expressible i ->
  exists x, item_tree sep i x /\ forall y, item_tree sep i y -> y = x.
Proof.
  intros (Hd & Hv & _).
  assert (Hk : Forall (fun v => fst v = decl_identifier (snd v)) (i_variables i)) by (eapply Forall_impl; [|exact Hv]; intros v [H _]; exact H).
  eexists. split.
  - eexists. split; [apply declared_exists; eassumption|reflexivity].
  - intros y (d & Hd' & ->). rewrite (declared_unique _ _ _ Hd' (declared_exists _ Hd Hk)). reflexivity.
Qed.
Print Assumptions C129_document.
(** The objects of an item body, its expressions and its rules on their own *)
Theorem C129_element_partial e : expressible e -> clean (tree e) ->
  exists w ts, WriteXML e = Ok w /\ markup [tree e] w /\ TokenizeString w = Ok ts /\
    flat_map token_events ts = events (tree e).
Proof.
  intros H1 H2. destruct (WriteXML_good e H1 H2) as (w & E & M & A).
  destruct (markup_read _ _ M) as (ts & T & V). exists w, ts. cbn [flat_map] in V. rewrite app_nil_r in V. auto.
Qed.
Print Assumptions C129_element_partial.
Theorem C129_expression e : clean (expr_tree 32 e) ->
  exists ts, markup [expr_tree 32 e] (WriteExpr e) /\ TokenizeString (WriteExpr e) = Ok ts /\
    flat_map token_events ts = events (expr_tree 32 e).
Proof.
  intros H. destruct (WriteExpr_marked e H) as (M & A).
  destruct (markup_read _ _ M) as (ts & T & V). exists ts. cbn [flat_map] in V. rewrite app_nil_r in V. auto.
Qed.
Print Assumptions C129_expression.

(** A complete item meets the hypotheses *)
Definition no_attrs := mkB None None None None.
Definition sample : item :=
  mkItem (lit "q1") (lit "R&D <1>") None (Some (lit "en-GB")) false false None None
    [(lit "SCORE", OutcomeDeclaration (lit "SCORE") (lit "single") (lit "float") (Some (lit "0", None)) None None);
     (lit "RESPONSE", ResponseDeclaration (lit "RESPONSE") (lit "single") (lit "identifier") None)]
    (Some (no_attrs,
      [Node XP no_attrs [XText (lit "Caf" ++ [233])];
       ChoiceInteraction (Some (lit "RESPONSE")) no_attrs true 1 (Some [XText (lit "?")])
         [SimpleChoice no_attrs (lit "A") (Some false) [XText (lit "a < b")]]]))
    (Some [ResponseCondition
             (Some (BinaryOperator (lit "match") (VariableOperator (lit "RESPONSE")) (BaseValueOperator (lit "identifier") (lit "A"))),
              [SetOutcomeValue (lit "SCORE") (BaseValueOperator (lit "float") (lit "1"))]) [] None])
    [mkF (lit "FEEDBACK") (Some (lit "F1")) (lit "show") None [XText (lit "Well done")]].
Definition sample_tree : xml :=
  Elem (lit "assessmentItem")
    [(lit "xmlns", lit "http://www.imsglobal.org/xsd/imsqti_v2p1");
     (lit "xmlns:xsi", lit "http://www.w3.org/2001/XMLSchema-instance");
     (lit "xsi:schemaLocation", lit "http://www.imsglobal.org/xsd/imsqti_v2p1 http://www.imsglobal.org/xsd/imsqti_v2p1.xsd");
     (lit "identifier", lit "q1"); (lit "title", lit "R&D <1>"); (lit "xml:lang", lit "en-GB");
     (lit "adaptive", lit "false"); (lit "timeDependent", lit "false")]
    [Elem (lit "responseDeclaration") [(lit "identifier", lit "RESPONSE"); (lit "cardinality", lit "single"); (lit "baseType", lit "identifier")] [];
     Elem (lit "outcomeDeclaration") [(lit "identifier", lit "SCORE"); (lit "cardinality", lit "single"); (lit "baseType", lit "float")]
       [Elem (lit "defaultValue") [] [Elem (lit "value") [] [Chars (lit "0")]]];
     Elem (lit "itemBody") []
       [Elem (lit "p") [] [Chars (lit "Caf" ++ [233])];
        Elem (lit "choiceInteraction") [(lit "responseIdentifier", lit "RESPONSE"); (lit "shuffle", lit "true"); (lit "maxChoices", lit "1")]
          [Elem (lit "prompt") [] [Chars (lit "?")];
           Elem (lit "simpleChoice") [(lit "identifier", lit "A"); (lit "fixed", lit "false")] [Chars (lit "a < b")]]];
     Elem (lit "responseProcessing") []
       [Elem (lit "responseCondition") []
          [Elem (lit "responseIf") []
             [Elem (lit "match") [] [Elem (lit "variable") [(lit "identifier", lit "RESPONSE")] []; Elem (lit "baseValue") [(lit "baseType", lit "identifier")] [Chars (lit "A")]];
              Elem (lit "setOutcomeValue") [(lit "identifier", lit "SCORE")] [Elem (lit "baseValue") [(lit "baseType", lit "float")] [Chars (lit "1")]]]]];
     Elem (lit "modalFeedback") [(lit "outcomeIdentifier", lit "FEEDBACK"); (lit "showHide", lit "show"); (lit "identifier", lit "F1")]
       [Chars (lit "Well done")]].
Definition text_b (s : str) : bool :=
  forallb (fun c => ((c =? 9) || (c =? 10) || ((32 <=? c) && (c <=? 0xD7FF))) && negb (c =? 128)) s.
Lemma text_b_ok s : text_b s = true -> text_ok s.
Proof.
  intros H. unfold text_b in H. rewrite forallb_forall in H. apply Forall_forall. intros c Hc. specialize (H c Hc).
  unfold xml_Char. lia.
Qed.
Definition att_b (s : str) : bool := text_b s && forallb (fun c => negb ((c =? 34) || (c =? 9) || (c =? 10))) s.
Lemma att_b_ok s : att_b s = true -> att_ok s.
Proof.
  intros H. apply andb_true_iff in H as [H1 H2]. split; [apply text_b_ok, H1|].
  rewrite forallb_forall in H2. apply Forall_forall. intros c Hc. specialize (H2 c Hc). lia.
Qed.
Fixpoint clean_b (x : xml) : bool :=
  match x with
  | Chars s => text_b s
  | Elem n a c => name_b n && forallb (fun kv => att_b (snd kv)) a && forallb clean_b c
  end.
Lemma clean_b_ok : forall x, clean_b x = true -> clean x.
Proof.
  fix IH 1. intros [n a c|s] H; [|apply text_b_ok, H]. cbn [clean_b] in H.
  apply andb_true_iff in H as [H H3]. apply andb_true_iff in H as [H1 H2]. cbn [clean]. split; [apply name_b_ok, H1|]. split.
  - rewrite forallb_forall in H2. apply Forall_forall. intros kv Hk. apply att_b_ok, H2, Hk.
  - clear H1 H2. induction c as [|y c IHc]; [exact I|]. cbn [forallb] in H3. apply andb_true_iff in H3 as [Hy Hc].
    split; [apply IH, Hy|apply IHc, Hc].
Qed.
Ltac pl := apply plain_b_ok; reflexivity.
Example C129_sample : item_expressible sample /\ item_tree 32 sample sample_tree /\ clean sample_tree.
Proof.
  split; [|split].
  - split; [apply distinct_ok; reflexivity|]. split; [|split; [|split]].
    + constructor; [split; [reflexivity|]; cbn; repeat split; try pl|].
      constructor; [split; [reflexivity|]; cbn; repeat split; pl|constructor].
    + repeat constructor. exists (lit "RESPONSE"). split; [reflexivity|pl].
    + constructor; [|constructor]. cbn. repeat split; discriminate.
    + repeat constructor. discriminate.
  - eexists [_; _]. split; [|reflexivity].
    exists [ResponseDeclaration (lit "RESPONSE") (lit "single") (lit "identifier") None],
           [OutcomeDeclaration (lit "SCORE") (lit "single") (lit "float") (Some (lit "0", None)) None None].
    split; [apply perm_swap|]. split; [repeat constructor|]. split; [repeat constructor|].
    split; [repeat constructor|]. split; [repeat constructor|reflexivity].
  - apply clean_b_ok. vm_compute. reflexivity.
Qed.
Example C129_sample_text : WriteXML (Node XP no_attrs [XText (lit "Caf" ++ [233])]) = Ok (NL ++ lit "<p>Caf&#233;</p>").
Proof. reflexivity. Qed.

(** What is missing: the values below are clean, but the file does not say what the item says.
    [loses e x]: the text written for [e] is not markup for [x]. *)
Definition wrong (l : list xml) (r : result str) : Prop := forall w, r = Ok w -> ~ markup l w.
Lemma wrong_events l r : (forall w ts, r = Ok w -> TokenizeString w = Ok ts ->
    flat_map token_events ts <> flat_map events l) -> wrong l r.
Proof. intros H w E M. destruct (markup_read l w M) as (ts & T & V). exact (H w ts E T V). Qed.
Ltac differs := apply wrong_events; intros w ts E T; vm_compute in E; injection E as <-; vm_compute in T;
  try discriminate T; injection T as <-; vm_compute; discriminate.
(** A quotation mark in the title or an ampersand in a response identifier *)
Theorem C129_quote_refuted : exists t, text_ok t /\
  wrong [feedback_tree (mkF (lit "FEEDBACK") (Some t) (lit "show") None [])]
        (WriteFeedback (mkF (lit "FEEDBACK") (Some t) (lit "show") None [])).
Proof. exists (lit "a""b"). split; [apply text_b_ok; reflexivity|]. differs. Qed.
Print Assumptions C129_quote_refuted.
Theorem C129_unescaped_refuted : exists r, att_ok r /\
  wrong [declaration_tree (ResponseDeclaration r (lit "single") (lit "float") None)]
        (Ok (WriteDeclaration (ResponseDeclaration r (lit "single") (lit "float") None))).
Proof. exists (lit "R&amp;D"). split; [apply att_b_ok; reflexivity|]. differs. Qed.
Print Assumptions C129_unescaped_refuted.
(** A long description, a height without a width, a width without a height *)
Theorem C129_image_refuted :
  wrong [tree (XImg (Some (lit "a.png")) (lit "") (Some (lit "d.html")) None None)]
        (WriteXML (XImg (Some (lit "a.png")) (lit "") (Some (lit "d.html")) None None)) /\
  wrong [tree (XImg (Some (lit "a.png")) (lit "") None None (Some (lit "5")))]
        (WriteXML (XImg (Some (lit "a.png")) (lit "") None None (Some (lit "5")))) /\
  wrong [tree (XImg (Some (lit "a.png")) (lit "") None (Some (lit "5")) None)]
        (WriteXML (XImg (Some (lit "a.png")) (lit "") None (Some (lit "5")) None)).
Proof. split; [|split]; differs. Qed.
Print Assumptions C129_image_refuted.
(** Unlimited choices in a hotspot interaction *)
Theorem C129_unlimited_refuted :
  wrong [tree (HotspotInteraction (Some (lit "R")) no_attrs 0 None (Some (XObject None None None None)) [])]
        (WriteXML (HotspotInteraction (Some (lit "R")) no_attrs 0 None (Some (XObject None None None None)) [])).
Proof. differs. Qed.
Print Assumptions C129_unlimited_refuted.
(** The prompt of a graphic order interaction; the title of a feedback *)
Theorem C129_prompt_refuted :
  wrong [tree (GraphicOrderInteraction (Some (lit "R")) no_attrs (Some [XText (lit "Sort")]) (Some (XObject None None None None)) [])]
        (WriteXML (GraphicOrderInteraction (Some (lit "R")) no_attrs (Some [XText (lit "Sort")]) (Some (XObject None None None None)) [])) /\
  wrong [feedback_tree (mkF (lit "FEEDBACK") (Some (lit "a")) (lit "show") (Some (lit "t")) [])]
        (WriteFeedback (mkF (lit "FEEDBACK") (Some (lit "a")) (lit "show") (Some (lit "t")) [])).
Proof. split; differs. Qed.
Print Assumptions C129_prompt_refuted.
(** Coordinates of an area in an expression: QTI 2.1 separates them by commas *)
Theorem C129_inside_refuted :
  wrong [expr_tree 44 (InsideOperator (VariableOperator (lit "R")) (lit "circle") [1; 2; 3])]
        (Ok (WriteExpr (InsideOperator (VariableOperator (lit "R")) (lit "circle") [1; 2; 3]))).
Proof. differs. Qed.
Print Assumptions C129_inside_refuted.

(** C130: markup inside a line of text adds no characters; _partial: an inline element is
    written with all of its own text, but with a line break before it. *)
Theorem C130_inline_partial n b t : ascii_name n -> Forall (fun kv => att_ok (snd kv)) (body_atts b) ->
  text_ok t -> t <> [] ->
  exists w, WriteXML (Node (SimpleInline n) b [XText t]) = Ok w /\
    TokenizeString w = Ok [Text [10]; Tag (mkTag n STag (body_atts b)); Text t; Tag (mkTag n ETag [])].
Proof.
  intros Hn Hb Ht Hne. eexists. split; [reflexivity|]. cbn [writes bind]. rewrite app_nil_r.
  unfold NL. cbn [node_name]. unfold open_tag, close_tag.
  pose proof (body_written b Hb) as Ha. apply atts_end in Ha.
  assert (Hd : NoDup (map fst (body_atts b))) by (eapply keys_distinct; [apply keys_body|reflexivity]).
  assert (S : content [Text [10]; Tag (mkTag n STag (body_atts b)); Text t; Tag (mkTag n ETag [])]
     ([10] ++ (60 :: n ++ body_attributes b ++ [62]) ++ XMLString t ++ (60 :: 47 :: n ++ [] ++ [62]) ++ [])).
  { apply ct_text; [discriminate|repeat constructor; lia|apply (plain_read_nl)|exact I|].
    apply ct_tag; [apply tm_start; [apply Hn|exact Hd|exact Ha]|].
    apply ct_text; [exact Hne|apply text_ok_is_text, Ht|apply XMLString_reads, text_ok_is_text, Ht|exact I|].
    apply ct_tag; [apply tm_end; [apply Hn|constructor]|constructor]. }
  rewrite app_nil_r in S. apply tokenize_content in S. exact S.
Qed.
Print Assumptions C130_inline_partial.
(** Text, images and objects add nothing *)
Theorem C130_text ts : Forall text_ok ts ->
  writes WriteXML (map XText ts) = Ok (XMLString (concat ts)) /\
  TokenizeString (XMLString (concat ts)) = Ok (match concat ts with [] => [] | s => [Text s] end).
Proof.
  intros H. split.
  - induction H as [|t ts Ht _ IH]; [reflexivity|]. cbn [map writes WriteXML bind].
    change ((fix go (l : list elem) := match l with [] => Ok [] | x :: l' => a <- WriteXML x;; b <- go l';; Ok (a ++ b) end) (map XText ts))
      with (writes WriteXML (map XText ts)). rewrite IH. cbn [bind concat]. f_equal. symmetry. apply XMLString_app.
  - rewrite tokenize_xml; [destruct (concat ts); reflexivity|]. induction H as [|t ts Ht _ IH]; [constructor|].
    cbn [concat]. apply Forall_app. split; [apply text_ok_is_text, Ht|exact IH].
Qed.
Print Assumptions C130_text.
Theorem C130_inline_refuted : exists w,
  writes WriteXML [XText (lit "H"); Node (SimpleInline (lit "sub")) no_attrs [XText (lit "2")]; XText (lit "O")] = Ok w /\
  TokenizeString w = Ok [Text (lit "H" ++ [10]); Tag (mkTag (lit "sub") STag []); Text (lit "2"); Tag (mkTag (lit "sub") ETag []); Text (lit "O")].
Proof. eexists. split; reflexivity. Qed.
Print Assumptions C130_inline_refuted.
