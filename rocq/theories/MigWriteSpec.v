(** Specification for the item files of the migration tool: XML documents, what it means
    for a text to be markup for one (XML 1.0, white space between children left open), and
    the document each part of a version 2 item stands for (IMS QTI 2.1).  Nothing here uses
    the functions of the writer; the data types of the item are shared. *)
From Coq Require Import Permutation Sorted.
From Verif Require Import Py Dec XmlUtils XmlSpec MigWrite.

Inductive xml : Type :=
| Elem (name : str) (atts : list (str * str)) (children : list xml)
| Chars (s : str).

(** [markup l w]: the text [w] is well-formed markup for the nodes [l].  White space may
    stand before, between and after the nodes, never inside a name, an attribute value or a
    run of characters. *)
Inductive markup : list xml -> str -> Prop :=
| mu_nil : markup [] []
| mu_space c l w : space c -> markup l w -> markup l (c :: w)
| mu_chars s l m w : Forall xml_Char s -> reads m s -> ~ In 62 m -> markup l w ->
    markup (Chars s :: l) (m ++ w)
| mu_elem n a c l m w1 w2 : is_name n -> NoDup (map fst a) -> attributes a m ->
    markup c w1 -> markup l w2 ->
    markup (Elem n a c :: l) (60 :: n ++ m ++ 62 :: w1 ++ 60 :: 47 :: n ++ 62 :: w2)
| mu_empty n a l m w2 : is_name n -> NoDup (map fst a) -> attributes a m ->
    markup l w2 ->
    markup (Elem n a [] :: l) (60 :: n ++ m ++ 47 :: 62 :: w2).

(** What a reader sees: start tags, end tags and the characters that are not white space *)
Inductive event := Start (name : str) (atts : list (str * str)) | End (name : str) | Char (c : Z).
Definition char_events (s : str) : list event :=
  map Char (filter (fun c => negb (existsb (Z.eqb c) [32; 9; 13; 10])) s).
Fixpoint events (x : xml) : list event :=
  match x with
  | Chars s => char_events s
  | Elem n a c => Start n a :: flat_map events c ++ [End n]
  end.
Definition token_events (t : token) : list event :=
  match t with
  | Text s => char_events s
  | Tag (mkTag n STag a) => [Start n a]
  | Tag (mkTag n EmptyElemTag a) => [Start n a; End n]
  | Tag (mkTag n ETag _) => [End n]
  end.

(** *** The characters that can be written *)
Definition text_ok (s : str) : Prop := Forall (fun c => xml_Char c /\ c <> 13 /\ c <> 128) s.
(** attribute values: no quotation mark, and none of the characters that attribute-value
    normalization replaces by a space *)
Definition att_ok (s : str) : Prop := text_ok s /\ Forall (fun c => c <> 34 /\ c <> 9 /\ c <> 10) s.
Definition ascii_name (s : str) : Prop := is_name s /\ Forall (fun c => c < 128) s.
(** values that need no escaping *)
Definition plain (s : str) : Prop := Forall (fun c => 32 <= c < 128 /\ c <> 34 /\ c <> 38 /\ c <> 60) s.
Definition if_set (P : str -> Prop) (o : option str) : Prop := match o with Some s => P s | None => True end.

Fixpoint clean (x : xml) : Prop :=
  match x with
  | Chars s => text_ok s
  | Elem n a c =>
      ascii_name n /\ Forall (fun kv => att_ok (snd kv)) a /\
      fold_right (fun y P => clean y /\ P) True c
  end.

(** *** Attributes *)
Definition att (k : string) (v : str) : list (str * str) := [(lit k, v)].
(** an optional attribute that is not set, or set to the empty string, is left out *)
Definition att_opt (k : string) (o : option str) : list (str * str) :=
  match o with Some (c :: s) => [(lit k, c :: s)] | _ => [] end.
Definition att_num (k : string) (o : option Z) : list (str * str) :=
  match o with Some n => [(lit k, pystr n)] | None => [] end.
Definition truth (b : bool) : str := if b then lit "true" else lit "false".
Definition att_bool (k : string) (o : option bool) : list (str * str) :=
  match o with Some b => [(lit k, truth b)] | None => [] end.
(** [separated sep l]: the texts of [l] with [sep] between them *)
Fixpoint separated (sep : Z) (l : list str) : str :=
  match l with
  | [] => []
  | x :: l' => x ++ match l' with [] => [] | _ => sep :: separated sep l' end
  end.

Definition body_atts (b : battrs) : list (str * str) :=
  att_opt "id" (b_id b) ++ att_opt "class" (b_class b) ++ att_opt "xml:lang" (b_lang b) ++
  att_opt "label" (b_label b).
Definition response_atts (r : option str) : list (str * str) :=
  match r with Some r => att "responseIdentifier" r | None => [] end.
Definition string_atts (s : sattrs) : list (str * str) :=
  att_opt "stringIdentifier" (s_ident s) ++ att_num "base" (s_base s) ++
  att_num "expectedLength" (s_length s).

Definition class_name (c : nclass) : str :=
  match c with
  | SimpleInline n | XUl n | TableCell n => n
  | XDiv => lit "div"
  | XBlockquote => lit "blockquote"
  | XLi => lit "li"
  | XP => lit "p"
  | XPre => lit "pre"
  | XTbody => lit "tbody"
  | XTr => lit "tr"
  end.

(** *** Documents *)
Fixpoint tree (e : elem) : xml :=
  let prompt_of (p : option (list elem)) : list xml :=
    match p with Some l => [Elem (lit "prompt") [] (map tree l)] | None => [] end in
  let graphic_of (g : option elem) : list xml := match g with Some x => [tree x] | None => [] end in
  match e with
  | XText s => Chars s
  | XBr => Elem (lit "br") [] []
  | XImg src alt longdesc width height =>
      Elem (lit "img") (att_opt "src" src ++ att "alt" alt ++ att_opt "longdesc" longdesc ++
                        att_opt "width" width ++ att_opt "height" height) []
  | XObject data type width height =>
      Elem (lit "object") (att_opt "data" data ++ att_opt "type" type ++
                           att_opt "width" width ++ att_opt "height" height) []
  | Node c b es => Elem (class_name c) (body_atts b) (map tree es)
  | XTable b summary bodies =>
      Elem (lit "table") (body_atts b ++ att_opt "summary" summary) (map tree bodies)
  | RubricBlock b view blocks =>
      Elem (lit "rubricBlock")
        (body_atts b ++ att "view" (match view with [] => lit "all" | _ => separated 32 view end))
        (map tree blocks)
  | ChoiceInteraction r b shuffle maxChoices p choices =>
      Elem (lit "choiceInteraction")
        (response_atts r ++ body_atts b ++ att "shuffle" (truth shuffle) ++ att "maxChoices" (pystr maxChoices))
        (prompt_of p ++ map tree choices)
  | OrderInteraction r b shuffle p choices =>
      Elem (lit "orderInteraction") (response_atts r ++ body_atts b ++ att "shuffle" (truth shuffle))
        (prompt_of p ++ map tree choices)
  | AssociateInteraction r b shuffle maxA p choices =>
      Elem (lit "associateInteraction")
        (response_atts r ++ body_atts b ++ att "shuffle" (truth shuffle) ++ att "maxAssociations" (pystr maxA))
        (prompt_of p ++ map tree choices)
  | SimpleChoice b identifier fixed es =>
      Elem (lit "simpleChoice") (body_atts b ++ att "identifier" identifier ++ att_bool "fixed" fixed) (map tree es)
  | SimpleAssociableChoice identifier fixed matchMax matchGroup es =>
      Elem (lit "simpleAssociableChoice")
        (att "identifier" identifier ++ att_bool "fixed" fixed ++ att "matchMax" (pystr matchMax) ++
         match matchGroup with [] => [] | _ => att "matchGroup" (separated 32 matchGroup) end)
        (map tree es)
  | HotspotChoice identifier fixed shape coords label =>
      Elem (lit "hotspotChoice")
        (att "identifier" identifier ++ att_bool "fixed" fixed ++ att "shape" shape ++
         att "coords" (separated 44 (map pystr coords)) ++ att_opt "hotspotLabel" label) []
  | ExtendedTextInteraction r b s maxStrings p =>
      Elem (lit "extendedTextInteraction")
        (response_atts r ++ body_atts b ++ string_atts s ++ att_num "maxStrings" maxStrings) (prompt_of p)
  | TextEntryInteraction r b s =>
      Elem (lit "textEntryInteraction") (response_atts r ++ body_atts b ++ string_atts s) []
  | HotspotInteraction r b maxChoices p g choices =>
      Elem (lit "hotspotInteraction")
        (response_atts r ++ body_atts b ++ att "maxChoices" (pystr maxChoices))
        (prompt_of p ++ graphic_of g ++ map tree choices)
  | SelectPointInteraction r b maxChoices p g =>
      Elem (lit "selectPointInteraction")
        (response_atts r ++ body_atts b ++ att "maxChoices" (pystr maxChoices)) (prompt_of p ++ graphic_of g)
  | GraphicOrderInteraction r b p g choices =>
      Elem (lit "graphicOrderInteraction") (response_atts r ++ body_atts b)
        (prompt_of p ++ graphic_of g ++ map tree choices)
  | SliderInteraction r b lower upper step stepLabel orientation reverse p =>
      Elem (lit "sliderInteraction")
        (response_atts r ++ body_atts b ++ att "lowerBound" lower ++ att "upperBound" upper ++
         match step with Some s => att "step" s | None => [] end ++
         att_bool "stepLabel" stepLabel ++ att_opt "orientation" orientation ++ att_bool "reverse" reverse)
        (prompt_of p)
  end.

(** [sep] separates the coordinates of an area: a comma in QTI 2.1 *)
Fixpoint expr_tree (sep : Z) (e : expr) : xml :=
  match e with
  | BinaryOperator n l r => Elem n [] [expr_tree sep l; expr_tree sep r]
  | MultiOperator n args => Elem n [] (map (expr_tree sep) args)
  | NotOperator e => Elem (lit "not") [] [expr_tree sep e]
  | CustomOperator c args => Elem (lit "customOperator") (att_opt "class" c) (map (expr_tree sep) args)
  | StringMatchOperator cs sub l r =>
      Elem (lit "stringMatch") (att "caseSensitive" (truth cs) ++ att "substring" (truth sub))
        [expr_tree sep l; expr_tree sep r]
  | VariableOperator i => Elem (lit "variable") (att "identifier" i) []
  | IndexOperator e n => Elem (lit "index") (att "n" (pystr n)) [expr_tree sep e]
  | BaseValueOperator t v => Elem (lit "baseValue") (att "baseType" t) [Chars v]
  | IsNullOperator e => Elem (lit "isNull") [] [expr_tree sep e]
  | NullOperator => Elem (lit "null") [] []
  | InsideOperator e shape coords =>
      Elem (lit "inside") (att "shape" shape ++ att "coords" (separated sep (map pystr coords))) [expr_tree sep e]
  end.

Definition test_tree (sep : Z) (e : option expr) : list xml :=
  match e with Some e => [expr_tree sep e] | None => [] end.
Fixpoint rule_tree (sep : Z) (r : rule) : xml :=
  match r with
  | SetOutcomeValue i e => Elem (lit "setOutcomeValue") (att "identifier" i) [expr_tree sep e]
  | ResponseCondition i elifs els =>
      Elem (lit "responseCondition") []
        (Elem (lit "responseIf") [] (test_tree sep (fst i) ++ map (rule_tree sep) (snd i)) ::
         map (fun b => Elem (lit "responseElseIf") [] (test_tree sep (fst b) ++ map (rule_tree sep) (snd b))) elifs ++
         match els with Some l => [Elem (lit "responseElse") [] (map (rule_tree sep) l)] | None => [] end)
  end.

Definition default_tree (d : option default_value) : list xml :=
  match d with
  | Some (v, i) => [Elem (lit "defaultValue") (att_opt "interpretation" i) [Elem (lit "value") [] [Chars v]]]
  | None => []
  end.
Definition declaration_tree (d : declaration) : xml :=
  match d with
  | ResponseDeclaration i c t df =>
      Elem (lit "responseDeclaration") (att "identifier" i ++ att "cardinality" c ++ att "baseType" t)
        (default_tree df)
  | OutcomeDeclaration i c t df interp nmax =>
      Elem (lit "outcomeDeclaration")
        (att "identifier" i ++ att "cardinality" c ++ att "baseType" t ++
         att_opt "interpretation" interp ++ att_opt "normalMaximum" nmax) (default_tree df)
  end.
Definition feedback_tree (f : feedback) : xml :=
  Elem (lit "modalFeedback")
    (att "outcomeIdentifier" (f_outcome f) ++ att "showHide" (f_showHide f) ++
     match f_identifier f with Some i => att "identifier" i | None => [] end ++ att_opt "title" (f_title f))
    (map tree (f_elements f)).

(** Names in the order of their code points *)
Inductive name_lt : str -> str -> Prop :=
| nl_nil b t : name_lt [] (b :: t)
| nl_head a s b t : a < b -> name_lt (a :: s) (b :: t)
| nl_tail a s t : name_lt s t -> name_lt (a :: s) (a :: t).

(** Declarations: the responses by name, then the outcomes by name *)
Definition declared (vars : list (str * declaration)) (l : list xml) : Prop :=
  exists rs os,
    Permutation (rs ++ os) (map snd vars) /\
    Forall (fun d => is_response d = true) rs /\ Forall (fun d => is_response d = false) os /\
    StronglySorted name_lt (map decl_identifier rs) /\ StronglySorted name_lt (map decl_identifier os) /\
    l = map declaration_tree (rs ++ os).

Definition processing_tree (sep : Z) (o : option (list rule)) : list xml :=
  match o with
  | Some (r :: rs) => [Elem (lit "responseProcessing") [] (map (rule_tree sep) (r :: rs))]
  | _ => []
  end.
Definition item_tree (sep : Z) (i : item) (x : xml) : Prop :=
  exists decls, declared (i_variables i) decls /\
  x = Elem (lit "assessmentItem")
        (att "xmlns" (lit "http://www.imsglobal.org/xsd/imsqti_v2p1") ++
         att "xmlns:xsi" (lit "http://www.w3.org/2001/XMLSchema-instance") ++
         att "xsi:schemaLocation"
           (lit "http://www.imsglobal.org/xsd/imsqti_v2p1 http://www.imsglobal.org/xsd/imsqti_v2p1.xsd") ++
         att "identifier" (i_identifier i) ++ att "title" (i_title i) ++ att_opt "label" (i_label i) ++
         att_opt "xml:lang" (i_language i) ++ att "adaptive" (truth (i_adaptive i)) ++
         att "timeDependent" (truth (i_timeDependent i)) ++ att_opt "toolName" (i_toolName i) ++
         att_opt "toolVersion" (i_toolVersion i))
        (decls ++
         match i_body i with
         | Some (b, es) => [Elem (lit "itemBody") (body_atts b) (map tree es)]
         | None => []
         end ++
         processing_tree sep (i_processing i) ++
         map feedback_tree (i_feedback i)).

(** *** Parts that the writer can express: identifiers that need no escaping, interactions
    that are bound to a response and have their graphic, and none of the details that it
    leaves out (an empty optional number, a height without a width, a long description, the
    prompt of a graphic order interaction, the title of a feedback). *)
Definition bound (r : option str) : Prop := exists s, r = Some s /\ plain s.
Definition number_ok (o : option Z) : Prop := o <> Some 0.
Definition nonempty (o : option str) : bool := match o with Some (_ :: _) => true | _ => false end.
Definition size_ok (w h : option str) : Prop :=
  nonempty w = nonempty h /\ if_set plain w /\ if_set plain h.
Definition strings_ok (s : sattrs) : Prop :=
  if_set plain (s_ident s) /\ number_ok (s_base s) /\ number_ok (s_length s).
Fixpoint expressible (e : elem) : Prop :=
  let all := fold_right (fun y P => expressible y /\ P) True in
  let all_opt (p : option (list elem)) := match p with Some l => all l | None => True end in
  let some (g : option elem) := match g with Some x => expressible x | None => False end in
  match e with
  | XText _ | XBr => True
  | XImg _ _ longdesc width height => nonempty longdesc = false /\ size_ok width height
  | XObject _ _ width height => size_ok width height
  | Node _ _ es => all es
  | XTable _ _ es => all es
  | RubricBlock _ view es => Forall plain view /\ all es
  | ChoiceInteraction r _ _ _ p cs => bound r /\ all_opt p /\ all cs
  | OrderInteraction r _ _ p cs => bound r /\ all_opt p /\ all cs
  | AssociateInteraction r _ _ _ p cs => bound r /\ all_opt p /\ all cs
  | SimpleChoice _ _ _ es => all es
  | SimpleAssociableChoice _ _ _ g es => Forall plain g /\ all es
  | HotspotChoice _ _ _ _ _ => True
  | ExtendedTextInteraction r _ s m p => bound r /\ strings_ok s /\ number_ok m /\ all_opt p
  | TextEntryInteraction r _ s => bound r /\ strings_ok s
  | HotspotInteraction r _ m p g cs => bound r /\ m <> 0 /\ all_opt p /\ some g /\ all cs
  | SelectPointInteraction r _ m p g => bound r /\ m <> 0 /\ all_opt p /\ some g
  | GraphicOrderInteraction r _ p g cs => bound r /\ p = None /\ some g /\ all cs
  | SliderInteraction r _ l u s _ _ _ p => bound r /\ plain l /\ plain u /\ if_set plain s /\ all_opt p
  end.
Fixpoint rule_expressible (r : rule) : Prop :=
  let all := fold_right (fun y P => rule_expressible y /\ P) True in
  match r with
  | SetOutcomeValue _ _ => True
  | ResponseCondition i elifs els =>
      (fst i <> None /\ all (snd i)) /\
      fold_right (fun b P => (fst b <> None /\ all (snd b)) /\ P) True elifs /\
      match els with Some l => all l | None => True end
  end.
Definition declaration_expressible (d : declaration) : Prop :=
  match d with
  | ResponseDeclaration i c t _ => plain i /\ plain c /\ plain t
  | OutcomeDeclaration i c t _ _ nmax => plain i /\ plain c /\ plain t /\ if_set plain nmax
  end.
Definition item_expressible (i : item) : Prop :=
  NoDup (map fst (i_variables i)) /\
  Forall (fun v => fst v = decl_identifier (snd v) /\ declaration_expressible (snd v)) (i_variables i) /\
  match i_body i with Some (_, es) => Forall expressible es | None => True end /\
  match i_processing i with Some rs => Forall rule_expressible rs | None => True end /\
  Forall (fun f => f_identifier f <> None /\ nonempty (f_title f) = false /\
                   Forall expressible (f_elements f)) (i_feedback i).
