(** Model of QTIMigration/lib/imsqti.py: the version 2 item that the migration tool builds
    and the WriteXML methods that turn it into a file.

    A value of [elem], [expr], [rule] or [item] is a Python object of the class named beside
    the constructor, with the fields its WriteXML reads.  The text a call to WriteXML passes
    to [f.write] is the result of the function; an exception is an [Err].  Numbers that are
    floats in Python (normalMaximum, slider bounds) are given by their [str()].  The abstract
    classes Expression and ResponseRule are never instantiated and are left out, and so is
    QTIMetadata (written into the manifest, not into the item). *)
From Verif Require Import Py Dec XmlUtils.

(** imsqti.py 297-303 the fields of a BodyElement *)
Record battrs := mkB {
  b_id : option str; b_class : option str; b_lang : option str; b_label : option str }.

(** Classes that write "\n<name", their BodyElement attributes, ">", the contained
    objects and "</name>". *)
Inductive nclass :=
| SimpleInline (name : str)        (* imsqti.py 347-362 *)
| XDiv                             (* imsqti.py 502-517 *)
| XBlockquote                      (* imsqti.py 522-533 *)
| XUl (name : str)                 (* imsqti.py 536-555 *)
| XLi                              (* imsqti.py 557-571 *)
| XP                               (* imsqti.py 573-584 *)
| XPre                             (* imsqti.py 586-597 *)
| XTbody                           (* imsqti.py 661-679 *)
| XTr                              (* imsqti.py 681-699 *)
| TableCell (name : str).          (* imsqti.py 701-716 *)

(** imsqti.py 974-987 the fields of a StringInteraction *)
Record sattrs := mkS { s_ident : option str; s_base : option Z; s_length : option Z }.

Inductive elem : Type :=
| XText (text : str)                                                  (* imsqti.py 760-768 *)
| XBr                                                                 (* imsqti.py 756-758 *)
| XImg (src : option str) (alt : str) (longdesc width height : option str)  (* 719-754 *)
| XObject (data type width height : option str)                       (* imsqti.py 599-628 *)
| Node (c : nclass) (b : battrs) (elements : list elem)
| XTable (b : battrs) (summary : option str) (bodies : list elem)     (* imsqti.py 630-659 *)
| RubricBlock (b : battrs) (view : list str) (blocks : list elem)     (* imsqti.py 430-453 *)
| ChoiceInteraction (response : option str) (b : battrs) (shuffle : bool) (maxChoices : Z)
    (prompt : option (list elem)) (choices : list elem)               (* imsqti.py 809-839 *)
| OrderInteraction (response : option str) (b : battrs) (shuffle : bool)
    (prompt : option (list elem)) (choices : list elem)               (* imsqti.py 841-866 *)
| AssociateInteraction (response : option str) (b : battrs) (shuffle : bool)
    (maxAssociations : Z) (prompt : option (list elem)) (choices : list elem)  (* 868-898 *)
| SimpleChoice (b : battrs) (identifier : str) (fixed : option bool)
    (elements : list elem)                                            (* imsqti.py 922-938 *)
| SimpleAssociableChoice (identifier : str) (fixed : option bool) (matchMax : Z)
    (matchGroup : list str) (elements : list elem)                    (* imsqti.py 940-972 *)
| HotspotChoice (identifier : str) (fixed : option bool) (shape : str) (coords : list Z)
    (label : option str)                                              (* imsqti.py 1108-1139 *)
| ExtendedTextInteraction (response : option str) (b : battrs) (s : sattrs)
    (maxStrings : option Z) (prompt : option (list elem))             (* imsqti.py 997-1018 *)
| TextEntryInteraction (response : option str) (b : battrs) (s : sattrs)   (* 1020-1031 *)
| HotspotInteraction (response : option str) (b : battrs) (maxChoices : Z)
    (prompt : option (list elem)) (graphic : option elem) (choices : list elem) (* 1044-1068 *)
| SelectPointInteraction (response : option str) (b : battrs) (maxChoices : Z)
    (prompt : option (list elem)) (graphic : option elem)             (* imsqti.py 1070-1088 *)
| GraphicOrderInteraction (response : option str) (b : battrs)
    (prompt : option (list elem)) (graphic : option elem) (choices : list elem) (* 1090-1106 *)
| SliderInteraction (response : option str) (b : battrs) (lower upper : str)
    (step : option str) (stepLabel : option bool) (orientation : option str)
    (reverse : option bool) (prompt : option (list elem)).            (* imsqti.py 1141-1190 *)

(** [f.write(' '+k+'="'+v+'"')] *)
Definition put (k : string) (v : str) : str := 32 :: lit k ++ 61 :: 34 :: v ++ [34].
(** [if v: f.write(' k="'+XMLString(v)+'"')]: None and the empty string are false *)
Definition put_opt (k : string) (v : option str) : str :=
  match v with
  | Some (c :: s) => put k (XMLString (c :: s))
  | _ => []
  end.
(** [if v: f.write(' k="'+str(v)+'"')] for a text *)
Definition put_str (k : string) (v : option str) : str :=
  match v with
  | Some (c :: s) => put k (c :: s)
  | _ => []
  end.
(** [if v: f.write(' k="'+str(v)+'"')] for a number: 0 is false *)
Definition put_num (k : string) (v : option Z) : str :=
  match v with
  | Some n => if n =? 0 then [] else put k (pystr n)
  | None => []
  end.
(** the same test as a pair of branches writing "true" and "false" *)
Definition bool_str (b : bool) : str := if b then lit "true" else lit "false".
(** [if v: ..."true" elif not (v is None): ..."false"] *)
Definition put_bool (k : string) (v : option bool) : str :=
  match v with Some b => put k (bool_str b) | None => [] end.

(** string.join *)
Fixpoint join (sep : str) (l : list str) : str :=
  match l with
  | [] => []
  | [x] => x
  | x :: l' => x ++ sep ++ join sep l'
  end.

(** imsqti.py 323-331 BodyElement.WriteXMLAttributes *)
Definition body_attributes (b : battrs) : str :=
  put_opt "id" (b_id b) ++ put_opt "class" (b_class b) ++
  put_opt "xml:lang" (b_lang b) ++ put_opt "label" (b_label b).

(** imsqti.py 780-781 Interaction.WriteXMLAttributes: adding None to a string is a TypeError *)
Definition interaction_attributes (response : option str) : result str :=
  match response with
  | Some r => Ok (put "responseIdentifier" r)
  | None => Err TypeError
  end.

(** imsqti.py 915-920 Choice.WriteXMLAttributes *)
Definition choice_attributes (identifier : str) (fixed : option bool) : str :=
  put "identifier" (XMLString identifier) ++ put_bool "fixed" fixed.

(** imsqti.py 956-960 AssociableChoice.WriteXMLAttributes *)
Definition associable_attributes identifier fixed matchMax matchGroup : str :=
  choice_attributes identifier fixed ++ put "matchMax" (pystr matchMax) ++
  match matchGroup with [] => [] | _ => put "matchGroup" (join (lit " ") matchGroup) end.

(** imsqti.py 989-995 StringInteraction.WriteXMLAttributes *)
Definition string_attributes (s : sattrs) : str :=
  put_str "stringIdentifier" (s_ident s) ++ put_num "base" (s_base s) ++
  put_num "expectedLength" (s_length s).

(** imsqti.py 1121-1128 Hotspot.WriteXMLAttributes *)
Definition hotspot_attributes (shape : str) (coords : list Z) (label : option str) : str :=
  put "shape" (XMLString shape) ++ put "coords" (join (lit ",") (map pystr coords)) ++
  put_opt "hotspotLabel" label.

Definition node_name (c : nclass) : str :=
  match c with
  | SimpleInline n => n
  | XDiv => lit "div"
  | XBlockquote => lit "blockquote"
  | XUl n => n
  | XLi => lit "li"
  | XP => lit "p"
  | XPre => lit "pre"
  | XTbody => lit "tbody"
  | XTr => lit "tr"
  | TableCell n => n
  end.

Definition NL : str := [10].

(** [for x in l: x.WriteXML(f)] *)
Definition writes {A} (w : A -> result str) : list A -> result str :=
  fix go l :=
    match l with
    | [] => Ok []
    | x :: l' => a <- w x ;; b <- go l' ;; Ok (a ++ b)
    end.
Definition write_opt {A} (w : A -> result str) (o : option A) : result str :=
  match o with Some x => w x | None => Ok [] end.

(** The start of a tag, what its attributes write, and the end of the tag *)
Definition open_tag (nm : str) (atts : str) : str := 60 :: nm ++ atts ++ [62].
Definition close_tag (nm : str) : str := 60 :: 47 :: nm ++ [62].
Definition empty_tag (nm : str) (atts : str) : str := 60 :: nm ++ atts ++ [47; 62].

Fixpoint WriteXML (e : elem) : result str :=
  let all := writes WriteXML in
  (* imsqti.py 803-807 Prompt.WriteXML *)
  let prompt_xml := write_opt (fun p =>
    c <- all p ;; Ok (NL ++ open_tag (lit "prompt") [] ++ c ++ close_tag (lit "prompt"))) in
  (* self.graphic.WriteXML(f): None has no such attribute *)
  let graphic_xml := fun g : option elem =>
    match g with Some x => WriteXML x | None => Err AttributeError end in
  match e with
  | XText t => Ok (XMLString t)
  | XBr => Ok (lit "<br/>" ++ NL)
  | XImg src alt longdesc width height =>
      (* imsqti.py 734-735 SetLongDesc stores None; 752 the height is written if there is a
         width, as str(None) if it is not set *)
      Ok (empty_tag (lit "img")
            (put_opt "src" src ++ put "alt" (XMLString alt) ++
             put_str "width" width ++
             match width with
             | Some (_ :: _) => put "height" (match height with Some h => h | None => lit "None" end)
             | _ => []
             end))
  | XObject data type width height =>
      Ok (empty_tag (lit "object")
            (put_opt "data" data ++ put_opt "type" type ++
             put_str "width" width ++
             match width with
             | Some (_ :: _) => put "height" (match height with Some h => h | None => lit "None" end)
             | _ => []
             end))
  | Node c b es =>
      t <- all es ;;
      Ok (NL ++ open_tag (node_name c) (body_attributes b) ++ t ++ close_tag (node_name c))
  | XTable b summary bodies =>
      t <- all bodies ;;
      Ok (NL ++ open_tag (lit "table") (body_attributes b ++ put_opt "summary" summary) ++ t ++
          close_tag (lit "table"))
  | RubricBlock b view blocks =>
      let view := match view with [] => [lit "all"] | _ => view end in
      t <- all blocks ;;
      Ok (NL ++ open_tag (lit "rubricBlock") (body_attributes b ++ put "view" (join (lit " ") view)) ++
          t ++ NL ++ close_tag (lit "rubricBlock"))
  | ChoiceInteraction response b shuffle maxChoices prompt choices =>
      r <- interaction_attributes response ;;
      p <- prompt_xml prompt ;; t <- all choices ;;
      Ok (NL ++ open_tag (lit "choiceInteraction")
            (r ++ body_attributes b ++ put "shuffle" (bool_str shuffle) ++
             put "maxChoices" (pystr maxChoices)) ++
          p ++ t ++ NL ++ close_tag (lit "choiceInteraction"))
  | OrderInteraction response b shuffle prompt choices =>
      r <- interaction_attributes response ;;
      p <- prompt_xml prompt ;; t <- all choices ;;
      Ok (NL ++ open_tag (lit "orderInteraction")
            (r ++ body_attributes b ++ put "shuffle" (bool_str shuffle)) ++
          p ++ t ++ NL ++ close_tag (lit "orderInteraction"))
  | AssociateInteraction response b shuffle maxAssociations prompt choices =>
      r <- interaction_attributes response ;;
      p <- prompt_xml prompt ;; t <- all choices ;;
      Ok (NL ++ open_tag (lit "associateInteraction")
            (r ++ body_attributes b ++ put "shuffle" (bool_str shuffle) ++
             put "maxAssociations" (pystr maxAssociations)) ++
          p ++ t ++ NL ++ close_tag (lit "associateInteraction"))
  | SimpleChoice b identifier fixed es =>
      t <- all es ;;
      Ok (NL ++ open_tag (lit "simpleChoice") (body_attributes b ++ choice_attributes identifier fixed) ++
          t ++ close_tag (lit "simpleChoice"))
  | SimpleAssociableChoice identifier fixed matchMax matchGroup es =>
      t <- all es ;;
      Ok (NL ++ open_tag (lit "simpleAssociableChoice")
            (associable_attributes identifier fixed matchMax matchGroup) ++
          t ++ close_tag (lit "simpleAssociableChoice"))
  | HotspotChoice identifier fixed shape coords label =>
      Ok (NL ++ empty_tag (lit "hotspotChoice")
            (choice_attributes identifier fixed ++ hotspot_attributes shape coords label))
  | ExtendedTextInteraction response b s maxStrings prompt =>
      r <- interaction_attributes response ;;
      let atts := r ++ body_attributes b ++ string_attributes s ++ put_num "maxStrings" maxStrings in
      match prompt with
      | Some _ =>
          p <- prompt_xml prompt ;;
          Ok (NL ++ open_tag (lit "extendedTextInteraction") atts ++ p ++
              close_tag (lit "extendedTextInteraction"))
      | None => Ok (NL ++ empty_tag (lit "extendedTextInteraction") atts)
      end
  | TextEntryInteraction response b s =>
      r <- interaction_attributes response ;;
      Ok (NL ++ empty_tag (lit "textEntryInteraction")
            (r ++ body_attributes b ++ string_attributes s))
  | HotspotInteraction response b maxChoices prompt graphic choices =>
      r <- interaction_attributes response ;;
      p <- prompt_xml prompt ;; g <- graphic_xml graphic ;; t <- all choices ;;
      Ok (NL ++ open_tag (lit "hotspotInteraction")
            (r ++ body_attributes b ++ put_num "maxChoices" (Some maxChoices)) ++
          p ++ g ++ t ++ close_tag (lit "hotspotInteraction"))
  | SelectPointInteraction response b maxChoices prompt graphic =>
      r <- interaction_attributes response ;;
      p <- prompt_xml prompt ;; g <- graphic_xml graphic ;;
      Ok (NL ++ open_tag (lit "selectPointInteraction")
            (r ++ body_attributes b ++ put_num "maxChoices" (Some maxChoices)) ++
          p ++ g ++ close_tag (lit "selectPointInteraction"))
  | GraphicOrderInteraction response b prompt graphic choices =>
      (* the prompt is not written *)
      r <- interaction_attributes response ;;
      g <- graphic_xml graphic ;; t <- all choices ;;
      Ok (NL ++ open_tag (lit "graphicOrderInteraction") (r ++ body_attributes b) ++
          g ++ t ++ close_tag (lit "graphicOrderInteraction"))
  | SliderInteraction response b lower upper step stepLabel orientation reverse prompt =>
      r <- interaction_attributes response ;;
      let atts := r ++ body_attributes b ++ put "lowerBound" lower ++ put "upperBound" upper ++
                  match step with Some s => put "step" s | None => [] end ++
                  put_bool "stepLabel" stepLabel ++ put_opt "orientation" orientation ++
                  put_bool "reverse" reverse in
      match prompt with
      | Some _ =>
          p <- prompt_xml prompt ;;
          Ok (NL ++ open_tag (lit "sliderInteraction") atts ++ p ++ close_tag (lit "sliderInteraction"))
      | None => Ok (NL ++ empty_tag (lit "sliderInteraction") atts)
      end
  end.

(** Expressions, imsqti.py 1295-1485 *)
Inductive expr : Type :=
| BinaryOperator (name : str) (left right : expr)           (* imsqti.py 1299-1309 *)
| MultiOperator (name : str) (arguments : list expr)        (* imsqti.py 1311-1323 *)
| NotOperator (e : expr)                                    (* imsqti.py 1325-1332 *)
| CustomOperator (opClass : option str) (arguments : list expr)  (* imsqti.py 1358-1370 *)
| StringMatchOperator (caseSensitive substring : bool) (left right : expr)  (* 1412-1432 *)
| VariableOperator (identifier : str)                       (* imsqti.py 1434-1439 *)
| IndexOperator (e : expr) (index : Z)                      (* imsqti.py 1441-1449 *)
| BaseValueOperator (baseType value : str)                  (* imsqti.py 1451-1457 *)
| IsNullOperator (e : expr)                                 (* imsqti.py 1459-1466 *)
| NullOperator                                              (* imsqti.py 1468-1470 *)
| InsideOperator (e : expr) (shape : str) (coords : list Z).  (* imsqti.py 1472-1485 *)

Fixpoint WriteExpr (e : expr) : str :=
  let all := fix go (l : list expr) : str :=
    match l with [] => [] | x :: l' => WriteExpr x ++ go l' end in
  match e with
  | BinaryOperator n l r => open_tag n [] ++ WriteExpr l ++ WriteExpr r ++ close_tag n
  | MultiOperator n args => open_tag n [] ++ all args ++ close_tag n
  | NotOperator e => open_tag (lit "not") [] ++ WriteExpr e ++ close_tag (lit "not")
  | CustomOperator c args =>
      open_tag (lit "customOperator") (put_opt "class" c) ++ all args ++ close_tag (lit "customOperator")
  | StringMatchOperator cs sub l r =>
      open_tag (lit "stringMatch")
        (32 :: put "caseSensitive" (bool_str cs) ++ put "substring" (bool_str sub)) ++
      WriteExpr l ++ WriteExpr r ++ close_tag (lit "stringMatch")
  | VariableOperator i => empty_tag (lit "variable") (put "identifier" (XMLString i))
  | IndexOperator e n => open_tag (lit "index") (put "n" (pystr n)) ++ WriteExpr e ++ close_tag (lit "index")
  | BaseValueOperator t v =>
      open_tag (lit "baseValue") (put "baseType" (XMLString t)) ++ XMLString v ++ close_tag (lit "baseValue")
  | IsNullOperator e => open_tag (lit "isNull") [] ++ WriteExpr e ++ close_tag (lit "isNull")
  | NullOperator => empty_tag (lit "null") []
  | InsideOperator e shape coords =>
      open_tag (lit "inside") (put "shape" (XMLString shape) ++
        put "coords" (join (lit " ") (map pystr coords))) ++ WriteExpr e ++ close_tag (lit "inside")
  end.

(** Response rules, imsqti.py 1206-1293.  The expression of a ResponseIf or ResponseElseIf is
    None until SetExpression is called. *)
Inductive rule : Type :=
| SetOutcomeValue (identifier : str) (e : expr)             (* imsqti.py 1210-1218 *)
| ResponseCondition (responseIf : option expr * list rule)
    (responseElseIf : list (option expr * list rule))
    (responseElse : option (list rule)).                    (* imsqti.py 1220-1244 *)

Definition write_test (e : option expr) : result str :=
  match e with Some e => Ok (WriteExpr e) | None => Err AttributeError end.

Fixpoint WriteRule (r : rule) : result str :=
  let all := writes WriteRule in
  (* imsqti.py 1257-1262, 1275-1280 ResponseIf.WriteXML and ResponseElseIf.WriteXML *)
  let branch := fun (nm : string) (x : option expr * list rule) =>
    t <- write_test (fst x) ;; rs <- all (snd x) ;;
    Ok (NL ++ open_tag (lit nm) [] ++ t ++ rs ++ NL ++ close_tag (lit nm)) in
  match r with
  | SetOutcomeValue i e =>
      Ok (NL ++ open_tag (lit "setOutcomeValue") (put "identifier" (XMLString i)) ++ WriteExpr e ++
          close_tag (lit "setOutcomeValue"))
  | ResponseCondition i elifs els =>
      a <- branch "responseIf"%string i ;;
      b <- writes (branch "responseElseIf"%string) elifs ;;
      c <- write_opt (fun l =>
             rs <- all l ;;
             Ok (NL ++ open_tag (lit "responseElse") [] ++ rs ++ NL ++ close_tag (lit "responseElse"))) els ;;
      Ok (NL ++ open_tag (lit "responseCondition") [] ++ a ++ b ++ c ++ NL ++
          close_tag (lit "responseCondition"))
  end.

(** imsqti.py 1199-1204 ResponseProcessing.WriteXML *)
Definition WriteResponseProcessing (rules : list rule) : result str :=
  match rules with
  | [] => Ok []
  | _ =>
      t <- writes WriteRule rules ;;
      Ok (NL ++ open_tag (lit "responseProcessing") [] ++ t ++ NL ++ close_tag (lit "responseProcessing"))
  end.

(** imsqti.py 279-285 DefaultValue: value and interpretation *)
Definition default_value := (str * option str)%type.
(** imsqti.py 287-294 *)
Definition WriteDefault (d : default_value) : str :=
  NL ++ open_tag (lit "defaultValue") (put_opt "interpretation" (snd d)) ++
  open_tag (lit "value") [] ++ XMLString (fst d) ++ close_tag (lit "value") ++
  close_tag (lit "defaultValue").

(** imsqti.py 216-277 ResponseDeclaration and OutcomeDeclaration *)
Inductive declaration : Type :=
| ResponseDeclaration (identifier cardinality baseType : str) (default : option default_value)
| OutcomeDeclaration (identifier cardinality baseType : str) (default : option default_value)
    (interpretation normalMaximum : option str).
Definition decl_identifier (d : declaration) : str :=
  match d with ResponseDeclaration i _ _ _ => i | OutcomeDeclaration i _ _ _ _ _ => i end.
Definition is_response (d : declaration) : bool :=
  match d with ResponseDeclaration _ _ _ _ => true | _ => false end.

Definition WriteDeclaration (d : declaration) : str :=
  let wrap nm atts df :=
    match df with
    | Some v => NL ++ open_tag nm atts ++ WriteDefault v ++ close_tag nm
    | None => NL ++ empty_tag nm atts
    end in
  match d with
  | ResponseDeclaration i c t df =>
      wrap (lit "responseDeclaration") (put "identifier" i ++ put "cardinality" c ++ put "baseType" t) df
  | OutcomeDeclaration i c t df interp nmax =>
      wrap (lit "outcomeDeclaration")
        (put "identifier" i ++ put "cardinality" c ++ put "baseType" t ++
         put_opt "interpretation" interp ++ put_str "normalMaximum" nmax) df
  end.

(** imsqti.py 455-477 ModalFeedback *)
Record feedback := mkF {
  f_outcome : str; f_identifier : option str; f_showHide : str; f_title : option str;
  f_elements : list elem }.
(** imsqti.py 479-487; XMLString(None) is the empty string; the title is not written *)
Definition WriteFeedback (f : feedback) : result str :=
  t <- writes WriteXML (f_elements f) ;;
  Ok (NL ++ open_tag (lit "modalFeedback")
        (put "outcomeIdentifier" (XMLString (f_outcome f)) ++ put "showHide" (XMLString (f_showHide f)) ++
         put "identifier" (match f_identifier f with Some i => XMLString i | None => [] end)) ++
      t ++ close_tag (lit "modalFeedback")).

(** imsqti.py 116-129 AssessmentItem; [i_variables] is the dict by identifier *)
Record item := mkItem {
  i_identifier : str; i_title : str; i_label : option str; i_language : option str;
  i_adaptive : bool; i_timeDependent : bool; i_toolName : option str; i_toolVersion : option str;
  i_variables : list (str * declaration);
  i_body : option (battrs * list elem);
  i_processing : option (list rule);
  i_feedback : list feedback }.

(** Python's order of strings: by code points *)
Fixpoint str_leb (s t : str) : bool :=
  match s, t with
  | [], _ => true
  | _ :: _, [] => false
  | a :: s', b :: t' => (a <? b) || ((a =? b) && str_leb s' t')
  end.
(** [vars.sort()], with the declarations that the sorted keys lead to *)
Fixpoint insert_var (v : str * declaration) (l : list (str * declaration)) :=
  match l with
  | [] => [v]
  | w :: l' => if str_leb (fst v) (fst w) then v :: l else w :: insert_var v l'
  end.
Definition sort_vars (l : list (str * declaration)) := fold_right insert_var [] l.

(** An attribute on a line of its own *)
Definition nl_put (k : string) (v : str) : str := 10 :: put k v.
Definition nl_opt (k : string) (v : option str) : str :=
  match v with Some (c :: s) => nl_put k (XMLString (c :: s)) | _ => [] end.
Definition tab_put (k : string) (v : str) : str := 10 :: 9 :: lit k ++ 61 :: 34 :: v ++ [34].

(** imsqti.py 171-213 AssessmentItem.WriteXML; 418-424 ItemBody.WriteXML *)
Definition WriteItem (i : item) : result str :=
  let vars := sort_vars (i_variables i) in
  let decls := concat (map (fun v => if is_response (snd v) then WriteDeclaration (snd v) else []) vars) ++
               concat (map (fun v => if is_response (snd v) then [] else WriteDeclaration (snd v)) vars) in
  body <- write_opt (fun b : battrs * list elem =>
            t <- writes WriteXML (snd b) ;;
            Ok (NL ++ open_tag (lit "itemBody") (body_attributes (fst b)) ++ t ++ NL ++
                close_tag (lit "itemBody"))) (i_body i) ;;
  rp <- write_opt WriteResponseProcessing (i_processing i) ;;
  fb <- writes WriteFeedback (i_feedback i) ;;
  Ok (open_tag (lit "assessmentItem")
        (tab_put "xmlns" (lit "http://www.imsglobal.org/xsd/imsqti_v2p1") ++
         tab_put "xmlns:xsi" (lit "http://www.w3.org/2001/XMLSchema-instance") ++
         tab_put "xsi:schemaLocation"
           (lit "http://www.imsglobal.org/xsd/imsqti_v2p1 http://www.imsglobal.org/xsd/imsqti_v2p1.xsd") ++
         put "identifier" (XMLString (i_identifier i)) ++ nl_put "title" (XMLString (i_title i)) ++
         nl_opt "label" (i_label i) ++ nl_opt "xml:lang" (i_language i) ++
         nl_put "adaptive" (bool_str (i_adaptive i)) ++
         nl_put "timeDependent" (bool_str (i_timeDependent i)) ++
         nl_opt "toolName" (i_toolName i) ++ nl_opt "toolVersion" (i_toolVersion i)) ++
      decls ++ body ++ rp ++ fb ++ NL ++ close_tag (lit "assessmentItem") ++ NL).
