(** Model of elements with namespaces: pyslet/pyslet/xmlnames20091208.py 6-147 (prefixes), 149-163, 285-369
    (writing), 405-443, 452-537 (reading).

    Simplifications.
    - Documents are of class XMLNSDocument, whose DefaultNS is None, and elements of class XMLNSElement; the parser
      is given the document, as Document.Read does (so GetNSDocumentClass is not called).
    - Names of attributes are pairs.  The warnings that are printed are left out.
    - A dictionary is the list of its items; where the order of its keys decides, it is that of the list.
    - An element knows its parent; here the functions are given the maps of the element and of what is around it,
      from the inside out ([context]); the document's are the last.
    - Writing is modelled in two steps: first the names that are written, for the element and all elements inside
      ([Qualify]), then the text ([GenerateText]).  A namespace declaration is told by its name.
    - Reading is modelled as reading the document ([XmlDoc.Read]) and then the names ([Expand]): the parser compares
      the names of start and end tags as they are written (parser.py 1314-1316). *)
From Verif Require Import Py XmlChars XmlDoc XmlOut.
From Verif Require Imscp Iso.
Open Scope Z_scope.
Open Scope list_scope.

(** xmlnames20091208.py 6-12 *)
Definition XML_NAMESPACE : str := lit "http://www.w3.org/XML/1998/namespace".
Definition XMLNS_NAMESPACE : str := lit "http://www.w3.org/2000/xmlns/".
Definition NO_NAMESPACE : str := lit "~".

(** The maps of an element or document, xmlnames20091208.py 40-44 *)
Record maps := Maps { prefixToNS : list (str * str); nsToPrefix : list (str * str) }.
Definition no_maps : maps := Maps [] [].
Definition context : Type := list maps.
(** XMLNSElement, 166-189: namespace, name, attributes, maps and children *)
Inductive nelem : Type :=
  NElem (ns : option str) (name : str) (attrs : list ((option str * str) * str)) (own : maps) (children : list (str + nelem)).

(** d[k]=v *)
Fixpoint set (k v : str) (d : list (str * str)) : list (str * str) :=
  match d with
  | [] => [(k, v)]
  | (k', v') :: d' => if str_eqb k k' then (k, v) :: d' else (k', v') :: set k v d'
  end.

(** ** Prefixes *)
(** The loops of GetPrefix, 66-80; [inner] are the maps between the element and the one at hand. *)
Definition has_prefix (p : str) (m : maps) : bool := match lookup p (prefixToNS m) with Some _ => true | None => false end.
Fixpoint prefix_loop (inner : list maps) (c : context) (ns : str) : option str :=
  match c with
  | [] => None
  | m :: up =>
      match lookup ns (nsToPrefix m) with
      | Some p => if existsb (has_prefix p) inner then prefix_loop (inner ++ [m]) up ns else Some p
      | None => prefix_loop (inner ++ [m]) up ns
      end
  end.
(** GetPrefix, 54-80 *)
Definition GetPrefix (c : context) (ns : option str) : option str :=
  match ns with
  | Some u =>
      if str_eqb u XML_NAMESPACE then Some (lit "xml")
      else if str_eqb u NO_NAMESPACE then Some []
      else prefix_loop [] c u
  | None => Some []
  end.
(** GetNS, 82-101: at the end, the last namespace looked up is returned *)
Fixpoint ns_loop (c : context) (prefix : str) : option str :=
  match c with
  | [] => None
  | m :: up =>
      match lookup prefix (prefixToNS m) with
      | Some (x :: u) => Some (x :: u)
      | ns =>
          match up with
          | [] => match prefix with [] => None | _ => ns end
          | _ => ns_loop up prefix
          end
      end
  end.
Definition GetNS (c : context) (prefix : str) : option str :=
  if str_eqb prefix (lit "xml") then Some XML_NAMESPACE else ns_loop c prefix.
(** NewPrefix, 103-122; [fuel] bounds the numbers tried *)
Fixpoint new_loop (fuel : nat) (c : context) (n : Z) : result str :=
  match fuel with
  | O => Err OutOfFuel
  | S f =>
      let prefix := lit "ns" ++ Iso.fmt n in
      match GetNS c prefix with Some _ => new_loop f c (n + 1) | None => Ok prefix end
  end.
Definition bindings (c : context) : nat := length (flat_map prefixToNS c).
Definition NewPrefix (c : context) : result str := new_loop (S (bindings c)) c 1.
(** MakePrefix, 124-135, of the element with maps [m] inside [up] *)
Definition MakePrefix (m : maps) (up : context) (ns : str) (prefix : option str) : result (maps * str) :=
  prefix <- match prefix with None => NewPrefix (m :: up) | Some p => Ok p end ;;
  if has_prefix prefix m then Err ValueError
  else Ok (Maps (set prefix ns (prefixToNS m)) (set ns prefix (nsToPrefix m)), prefix).
(** GetPrefixMap, 137-147 *)
Definition GetPrefixMap (c : context) : list (str * str) :=
  fold_left (fun d m =>
    fold_left (fun d '(p, u) => match lookup p d with Some _ => d | None => d ++ [(p, u)] end) (prefixToNS m) d) c [].

(** ** Writing *)
Definition qname (prefix name : str) : str := match prefix with [] => name | _ => prefix ++ lit ":" ++ name end.
(** The start of GenerateXML, 320-327 *)
Definition element_prefix (m : maps) (up : context) (ns : option str) : result (maps * str) :=
  match ns with
  | Some (x :: u) =>
      match GetPrefix (m :: up) (Some (x :: u)) with
      | Some p => Ok (m, p)
      | None => MakePrefix m up (x :: u) (Some [])
      end
  | _ => Ok (m, [])
  end.
(** keys.sort(), 293 *)
Definition cmp_name (a b : option str * str) : comparison :=
  match fst a, fst b with
  | None, None => cmp_str (snd a) (snd b)
  | None, Some _ => Lt
  | Some _, None => Gt
  | Some u, Some v => match cmp_str u v with Eq => cmp_str (snd a) (snd b) | c => c end
  end.
Fixpoint insert_name {A} (x : (option str * str) * A) (l : list ((option str * str) * A)) : list ((option str * str) * A) :=
  match l with
  | [] => [x]
  | y :: l' => match cmp_name (fst x) (fst y) with Gt => y :: insert_name x l' | _ => x :: l end
  end.
Definition sort_keys {A} (l : list ((option str * str) * A)) : list ((option str * str) * A) := fold_right insert_name [] l.
(** The loop of WriteXMLAttributes, 294-306 *)
Fixpoint attribute_names (m : maps) (up : context) (l : list ((option str * str) * str)) : result (maps * list (str * str)) :=
  match l with
  | [] => Ok (m, [])
  | ((ns, aname), v) :: l' =>
      mp <- match GetPrefix (m :: up) ns, ns with
            | Some p, _ => Ok (m, p)
            | None, Some u => MakePrefix m up u None
            | None, None => Ok (m, [])   (* GetPrefix(None) is '' *)
            end ;;
      let '(m1, p) := mp in
      r <- attribute_names m1 up l' ;;
      let '(m2, w) := r in
      Ok (m2, (qname p aname, v) :: w)
  end.
(** WriteNSAttributes, 149-163 *)
Definition declaration_name (p : str) : str := match p with [] => lit "xmlns" | _ => lit "xmlns:" ++ p end.
Definition WriteNSAttributes (root : bool) (m : maps) (up : context) : list (str * str) :=
  map (fun '(p, u) => (declaration_name p, u)) (SortNames (if root then GetPrefixMap (m :: up) else prefixToNS m)).
(** WriteXMLAttributes, 285-307, and GenerateXML, 309-369: the names *)
Fixpoint Qualify (root : bool) (up : context) (t : nelem) : result tree :=
  match t with
  | NElem ns name attrs own children =>
      r <- element_prefix own up ns ;;
      let '(m1, p) := r in
      r <- attribute_names m1 up (sort_keys attrs) ;;
      let '(m2, w) := r in
      ch <- (fix all (l : list (str + nelem)) : result (list node) :=
               match l with
               | [] => Ok []
               | inl s :: l' => r <- all l' ;; Ok (inl s :: r)
               | inr e :: l' => q <- Qualify false (m2 :: up) e ;; r <- all l' ;; Ok (inr q :: r)
               end) children ;;
      Ok (Elem (qname p name) (WriteNSAttributes root m2 up ++ w) ch)
  end.

Section Writing.
Variable escapeFunction : str -> bool -> str.
(** Namespace declarations are always escaped with EscapeCharData, 307. *)
Definition declares (a : str) : bool := str_eqb a (lit "xmlns") || str_eqb (firstn 6 a) (lit "xmlns:").
Definition AttributesText (attrs : list (str * str)) : str :=
  flat_map (fun '(a, v) => lit " " ++ a ++ lit "=" ++ (if declares a then EscapeCharData v true else escapeFunction v true)) attrs.
(** GenerateXML, 309-369: the text *)
Fixpoint GenerateText (outer : bool) (ws : str) (t : tree) : str :=
  match t with
  | Elem n attrs children =>
      let preserve := preserves outer attrs in
      let attributes := AttributesText attrs in
      match GetCanonicalChildren preserve
              (map (fun c => match c with inl s => inl s | inr e => inr (GenerateText preserve [] e) end) children) with
      | [] => ws ++ lit "<" ++ n ++ attributes ++ lit "/>"
      | l =>
          ws ++ lit "<" ++ n ++ attributes ++ lit ">" ++
          flat_map (fun c => match c with inl s => escapeFunction s false | inr x => x end) l ++
          lit "</" ++ n ++ lit ">"
      end
  end.
(** Document.GenerateXML, structures.py 456-463, of a document with maps [d] *)
Definition GenerateNSDocument (tab : bool) (d : maps) (root : nelem) : result str :=
  t <- Qualify true [d] root ;;
  Ok (if tab then lit "<?xml version=""1.0"" encoding=""UTF-8""?>" ++ GenerateText false [10] t
      else lit "<?xml version=""1.0"" encoding=""UTF-8""?>" ++ [10] ++ GenerateText false [] t).
End Writing.

(** ** Reading *)
(** ExpandQName, 405-443; [c] is the context of the parser *)
Definition find_ns (c : context) (nsDefs : list (str * str)) (prefix : str) : option str :=
  match lookup prefix nsDefs with Some u => Some u | None => GetNS c prefix end.
Definition ExpandQName (c : context) (q : str) (nsDefs : list (str * str)) (useDefault : bool) : result (option str * str) :=
  match Imscp.split_on 58 q with
  | [_] =>
      if str_eqb q (lit "xmlns") then Ok (Some XMLNS_NAMESPACE, [])
      else if useDefault then Ok (find_ns c nsDefs [], q)
      else Ok (Some NO_NAMESPACE, q)
  | [nsprefix; local] =>
      if str_eqb nsprefix (lit "xml") then Ok (Some XML_NAMESPACE, local)
      else if str_eqb nsprefix (lit "xmlns") then Ok (Some XMLNS_NAMESPACE, local)
      else Ok (find_ns c nsDefs nsprefix, local)
  | _ => Err XMLFatalError
  end.
(** ParseNSAttributes, 452-481 *)
Definition begins_xmlns (a : str) : bool := str_eqb (firstn 5 a) (lit "xmlns").
Fixpoint ns_definitions (attrs : list (str * str)) : list (str * str) :=
  match attrs with
  | [] => []
  | (a, v) :: l =>
      if begins_xmlns a then
        match skipn 5 a with
        | [] => ([], v) :: ns_definitions l
        | x :: p => if x =? 58 then (p, v) :: ns_definitions l else ns_definitions l
        end
      else ns_definitions l
  end.
Definition same_name (a b : option str * str) : bool :=
  match cmp_name a b with Eq => true | _ => false end.
Fixpoint set_attr (k : option str * str) (v : str) (d : list ((option str * str) * str)) : list ((option str * str) * str) :=
  match d with
  | [] => [(k, v)]
  | (k', v') :: d' => if same_name k k' then (k, v) :: d' else (k', v') :: set_attr k v d'
  end.
Fixpoint expand_attributes (c : context) (ns : list (str * str)) (attrs : list (str * str))
    (d : list ((option str * str) * str)) : result (list ((option str * str) * str)) :=
  match attrs with
  | [] => Ok d
  | (a, v) :: l =>
      if begins_xmlns a then expand_attributes c ns l d
      else k <- ExpandQName c a ns false ;; expand_attributes c ns l (set_attr k v d)
  end.
(** ns[p]=u for every definition *)
Definition definitions (attrs : list (str * str)) : list (str * str) :=
  fold_left (fun d '(p, u) => set p u d) (ns_definitions attrs) [].
(** SetAttribute of the special attribute, 229-232: dict(zip(nsMap.values(),nsMap.keys())) *)
Definition inverse (d : list (str * str)) : list (str * str) := fold_left (fun r '(p, u) => set u p r) d [].
(** GetSTagClass, 483-537, and ParseElement, parser.py 1235-1348 *)
Fixpoint Expand (c : context) (t : tree) : result nelem :=
  match t with
  | Elem q attrs children =>
      let ns := definitions attrs in
      a <- expand_attributes c ns attrs [] ;;
      n <- ExpandQName c q ns true ;;
      let m := Maps ns (inverse ns) in
      ch <- (fix all (l : list node) : result (list (str + nelem)) :=
               match l with
               | [] => Ok []
               | inl s :: l' => r <- all l' ;; Ok (inl s :: r)
               | inr e :: l' => x <- Expand (m :: c) e ;; r <- all l' ;; Ok (inr x :: r)
               end) children ;;
      Ok (NElem (fst n) (snd n) a m ch)
  end.
(** Document.Read of a unicode string into a new document *)
Definition ReadNS (fuel : nat) (s : str) : result nelem :=
  t <- Read fuel s ;; Expand [no_maps] t.
(** IsValidNCName, 17-26 *)
Definition IsValidNCName (name : str) : bool :=
  match name with
  | [] => false
  | c :: l => if negb (IsNameStartChar c) || (c =? 58) then false else forallb (fun c => IsNameChar c && negb (c =? 58)) l
  end.
