(** Model of reading an XML document: pyslet/pyslet/xml20081126/parser.py 136-168 (reading and pushing back
    characters), 322-437 (literals, digits, quotes, documents), 502-577 (white space and names), 669-728
    (attribute values), 772-942 (character data, comments, processing instructions, CDATA sections), 944-1055
    (prolog), 1189-1207 (standalone), 1209-1348 (elements), 1517-1684 (tags and content), 2291-2413 (references),
    2674-2706 (encoding names), and structures.py 2644-2651, 2771-2828 (characters of an entity), 1749-1794
    (AddData, ContentChanged).

    Simplifications.
    - The options of the parser have their default values: no validation, no SGML rules, well-formedness is
      checked.  The document is a Document and its elements are of class Element.
    - The document is held by a unicode string (OpenUnicode), of which a declared encoding changes nothing
      (ChangeEncoding without a data source).  The build has 32-bit characters.
    - A document type declaration is outside the model ([Unmodelled]): so the dtd is an empty XMLDTD, there are
      no declared entities, the entity stack stays empty and Standalone() is True (parser.py 230-240).
    - The state of the reader is the text from the current character on; [rd_view] below relates it to the
      buffer and the entity.
    - A dictionary of attributes is the list of its items in the order in which they came.
    - Character data is added to an element at once, not in chunks (AddData appends to the last string).
    - What is read of comments and processing instructions is dropped (Node.ProcessingInstruction does nothing).
    - The messages of exceptions are left out; [XMLFatalError] stands for XMLWellFormedError. *)
From Verif Require Import Py XmlChars.
From Verif Require XmlUtils.
Open Scope Z_scope.
Open Scope list_scope.

(** An element: its name, its attributes and its children, which are strings or elements
    (structures.py 1119-1130). *)
Inductive tree : Type := Elem (name : str) (attrs : list (str * str)) (children : list (str + tree)).
Definition node : Type := (str + tree)%type.

(** ** Characters of an entity *)

(** XMLEntity.NextChar, structures.py 2797-2828: the characters it goes through. *)
Fixpoint entity_chars (ignoreLF : bool) (s : str) : str :=
  match s with
  | [] => []
  | c :: s' =>
      if c =? 13 then 10 :: entity_chars true s'
      else if c =? 10 then if ignoreLF then entity_chars false s' else 10 :: entity_chars false s'
      else c :: entity_chars false s'
  end.

(** OpenUnicode and Reset, structures.py 2644-2651, 2771-2788: a byte order mark is skipped. *)
Definition OpenUnicode (s : str) : str :=
  match entity_chars false s with
  | c :: t => if c =? 0xFEFF then t else c :: t
  | [] => []
  end.

(** XMLParser.NextChar and BuffText, parser.py 136-162: the buffer and the characters of the entity from its
    current one on. *)
Definition reader : Type := (str * str)%type.
Definition rd_next (r : reader) : reader :=
  let '(buff, ent) := r in
  match tl buff with
  | [] => ([], tl ent)
  | b => (b, ent)
  end.
Definition rd_push (u : str) (r : reader) : reader :=
  let '(buff, ent) := r in
  match u with
  | [] => r
  | _ => match buff with
         | [] => (u ++ firstn 1 ent, ent)
         | _ => (u ++ buff, ent)
         end
  end.
(** theChar *)
Definition rd_char (r : reader) : option Z :=
  let '(buff, ent) := r in
  match buff with
  | c :: _ => Some c
  | [] => match ent with c :: _ => Some c | [] => None end
  end.

(** ** Literals, digits, quotes, white space, names *)

(** ParseLiteral, parser.py 322-337: the rest if the text begins with the literal. *)
Fixpoint ParseLiteral (m s : str) : option str :=
  match m, s with
  | [], _ => Some s
  | x :: m', c :: s' => if x =? c then ParseLiteral m' s' else None
  | _ :: _, [] => None
  end.

(** ParseRequiredLiteral, parser.py 339-346 *)
Definition ParseRequiredLiteral (m s : str) : result str :=
  match ParseLiteral m s with Some r => Ok r | None => Err XMLFatalError end.

(** The loops [while ... : append, NextChar] *)
Fixpoint take_while (p : Z -> bool) (s : str) : str * str :=
  match s with
  | c :: s' => if p c then let '(a, r) := take_while p s' in (c :: a, r) else ([], s)
  | [] => ([], [])
  end.

Definition dec_char (c : Z) : bool := (48 <=? c) && (c <=? 57).
Definition hex_char (c : Z) : bool :=
  dec_char c || ((97 <=? c) && (c <=? 102)) || ((65 <=? c) && (c <=? 70)).
(** int(digits), int(digits,16) *)
Definition digit (c : Z) : Z := if c <=? 57 then c - 48 else if c <=? 70 then c - 55 else c - 87.
Definition number (base : Z) (ds : str) : Z := fold_left (fun v c => v * base + digit c) ds 0.

(** ParseRequiredDecimalDigits and ParseRequiredHexDigits, parser.py 348-382 *)
Definition ParseRequiredDigits (p : Z -> bool) (s : str) : result (str * str) :=
  let '(ds, r) := take_while p s in
  match ds with [] => Err XMLFatalError | _ => Ok (ds, r) end.

(** ParseQuote, parser.py 384-399, without and with the expected quote *)
Definition ParseQuote (s : str) : result (Z * str) :=
  match s with
  | c :: r => if (c =? 34) || (c =? 39) then Ok (c, r) else Err XMLFatalError
  | [] => Err XMLFatalError
  end.
Definition ParseThisQuote (q : Z) (s : str) : result str :=
  match s with
  | c :: r => if c =? q then Ok r else Err XMLFatalError
  | [] => Err XMLFatalError
  end.

(** ParseS and ParseRequiredS, parser.py 502-547 *)
Definition ParseS (s : str) : str * str := take_while IsS s.
Definition ParseRequiredS (s : str) : result str :=
  let '(sp, r) := ParseS s in match sp with [] => Err XMLFatalError | _ => Ok r end.

(** ParseName, parser.py 553-568: None is the empty list *)
Definition ParseName (s : str) : str * str :=
  match s with
  | c :: r =>
      if IsNameStartChar c then let '(n, r') := take_while IsNameChar r in (c :: n, r') else ([], s)
  | [] => ([], [])
  end.
(** ParseRequiredName, parser.py 570-577 *)
Definition ParseRequiredName (s : str) : result (str * str) :=
  let '(n, r) := ParseName s in match n with [] => Err XMLFatalError | _ => Ok (n, r) end.

(** ParseEq, parser.py 1027-1031 *)
Definition ParseEq (s : str) : result str :=
  r <- ParseRequiredLiteral (lit "=") (snd (ParseS s)) ;; Ok (snd (ParseS r)).

(** ** References *)

(** XMLParser.PredefinedEntities, parser.py 33-38 *)
Definition PredefinedEntities : list (str * Z) :=
  [(lit "lt", 60); (lit "gt", 62); (lit "apos", 39); (lit "quot", 34); (lit "amp", 38)].
Fixpoint lookup {A} (k : str) (m : list (str * A)) : option A :=
  match m with
  | [] => None
  | (k', v) :: m' => if str_eqb k k' then Some v else lookup k m'
  end.

(** ParseCharRef, parser.py 2291-2318, after "&" and at "#" *)
Definition char_ref (base : Z) (p : Z -> bool) (s : str) : result (Z * str) :=
  '(ds, r) <- ParseRequiredDigits p s ;;
  c <- XmlUtils.unichr (number base ds) ;;
  r' <- ParseRequiredLiteral (lit ";") r ;;
  if IsChar c then Ok (c, r') else Err XMLFatalError.
Definition ParseCharRef (s : str) : result (Z * str) :=
  s1 <- ParseRequiredLiteral (lit "#") s ;;
  match ParseLiteral (lit "x") s1 with
  | Some s2 => char_ref 16 hex_char s2
  | None => char_ref 10 dec_char s1
  end.

(** ParseEntityRef, parser.py 2333-2406, after "&": the reference is to a predefined entity or to an
    undeclared one *)
Definition ParseEntityRef (s : str) : result (Z * str) :=
  '(n, r) <- ParseRequiredName s ;;
  r' <- ParseRequiredLiteral (lit ";") r ;;
  match lookup n PredefinedEntities with
  | Some c => Ok (c, r')
  | None => Err XMLFatalError
  end.

(** ParseReference, parser.py 2320-2331 *)
Definition ParseReference (s : str) : result (Z * str) :=
  s1 <- ParseRequiredLiteral (lit "&") s ;;
  match s1 with
  | c :: _ => if c =? 35 then ParseCharRef s1 else ParseEntityRef s1
  | [] => ParseEntityRef s1
  end.

(** ** Tags *)

(** ParseAttValue, parser.py 669-728: the loop.  Every turn consumes a character. *)
Fixpoint att_loop (fuel : nat) (q : Z) (s : str) : result (str * str) :=
  match fuel with
  | O => Err OutOfFuel
  | S f =>
      match s with
      | [] => Err XMLFatalError
      | c :: s' =>
          if c =? q then Ok ([], s')
          else if c =? 38 then
            '(v, r) <- ParseReference s ;; '(vs, r') <- att_loop f q r ;; Ok (v :: vs, r')
          else if IsS c then '(vs, r') <- att_loop f q s' ;; Ok (32 :: vs, r')
          else if c =? 60 then Err XMLFatalError
          else '(vs, r') <- att_loop f q s' ;; Ok (c :: vs, r')
      end
  end.
Definition ParseAttValue (s : str) : result (str * str) :=
  '(q, r) <- ParseQuote s ;; att_loop (S (length r)) q r.

(** ParseAttribute, parser.py 1560-1582 *)
Definition ParseAttribute (s : str) : result (str * str * str) :=
  '(n, r) <- ParseRequiredName s ;;
  r1 <- ParseEq r ;;
  '(v, r2) <- ParseAttValue r1 ;;
  Ok (n, v, r2).

(** ParseSTag, parser.py 1517-1558: the loop over the attributes *)
Fixpoint stag_loop (fuel : nat) (attrs : list (str * str)) (s : str)
  : result (list (str * str) * bool * str) :=
  match fuel with
  | O => Err OutOfFuel
  | S f =>
      let '(sp, s1) := ParseS s in
      match s1 with
      | c :: r =>
          if c =? 62 then Ok (attrs, false, r)
          else if c =? 47 then r' <- ParseRequiredLiteral (lit "/>") s1 ;; Ok (attrs, true, r')
          else
            match sp with
            | [] => Err XMLFatalError
            | _ =>
                '(n, v, r') <- ParseAttribute s1 ;;
                match lookup n attrs with
                | Some _ => Err XMLFatalError
                | None => stag_loop f (attrs ++ [(n, v)]) r'
                end
            end
      | [] => Err XMLFatalError
      end
  end.
Definition ParseSTag (s : str) : result (str * list (str * str) * bool * str) :=
  s1 <- ParseRequiredLiteral (lit "<") s ;;
  '(n, r) <- ParseRequiredName s1 ;;
  '(attrs, empty, r') <- stag_loop (S (length r)) [] r ;;
  Ok (n, attrs, empty, r').

(** ParseETag, parser.py 1584-1605 *)
Definition ParseETag (s : str) : result (str * str) :=
  s1 <- ParseRequiredLiteral (lit "</") s ;;
  '(n, r) <- ParseRequiredName s1 ;;
  r' <- ParseRequiredLiteral (lit ">") (snd (ParseS r)) ;;
  Ok (n, r').

(** ** Comments, processing instructions, CDATA sections, character data *)

(** ParseComment, parser.py 813-857, after "<!--"; [h] is nHyphens.  The text ends the loop as well. *)
Fixpoint comment_loop (h : Z) (s : str) : result str :=
  match s with
  | [] => Ok []
  | c :: s' =>
      if c =? 45 then if h + 1 >? 2 then Err XMLFatalError else comment_loop (h + 1) s'
      else if c =? 62 then if h =? 2 then Ok s' else comment_loop 0 s'
      else if IsS c then comment_loop (if h <? 2 then 0 else h) s'
      else if h >=? 2 then Err XMLFatalError
      else comment_loop 0 s'
  end.
Definition ParseComment (s : str) : result str := comment_loop 0 s.

(** ParsePITarget, parser.py 894-900: without a name, None.lower() raises AttributeError *)
Definition ParsePITarget (s : str) : result str :=
  let '(n, r) := ParseName s in
  match n with
  | [] => Err AttributeError
  | _ => if str_eqb (map lower1 n) (lit "xml") then Err XMLFatalError else Ok r
  end.

(** ParsePI, parser.py 859-892, after "<?".  A question mark at the end of the text puts None in the list
    [data], which string.join refuses. *)
Fixpoint pi_loop (s : str) : result str :=
  match s with
  | [] => Ok []
  | c :: s' =>
      if c =? 63 then
        match s' with
        | [] => Err TypeError
        | d :: r => if d =? 62 then Ok r else pi_loop r
        end
      else pi_loop s'
  end.
Definition ParsePI (s : str) : result str :=
  r <- ParsePITarget s ;;
  let '(sp, r1) := ParseS r in
  match sp with
  | [] => ParseRequiredLiteral (lit "?>") r1
  | _ => pi_loop r1
  end.

(** ParseCDSect and ParseCData, parser.py 902-938, after "<![CDATA[" *)
Fixpoint ParseCDSect (s : str) : result (str * str) :=
  match ParseLiteral (lit "]]>") s with
  | Some r => Ok ([], r)
  | None =>
      match s with
      | [] => Err XMLFatalError
      | c :: s' => '(d, r) <- ParseCDSect s' ;; Ok (c :: d, r)
      end
  end.

(** ParseCharData, parser.py 772-811 *)
Fixpoint ParseCharData (s : str) : str * str :=
  match s with
  | [] => ([], [])
  | c :: s' =>
      if (c =? 60) || (c =? 38) then ([], s)
      else match (if c =? 93 then ParseLiteral (lit "]]>") s else None) with
           | Some _ => ([], s)
           | None => let '(d, r) := ParseCharData s' in (c :: d, r)
           end
  end.

(** ** Elements *)

(** Element.AddData for an element of mixed content, structures.py 1749-1768, called by HandleData
    (parser.py 1686-1702) for data that is not empty *)
Fixpoint AddData (children : list node) (data : str) : list node :=
  match children with
  | [] => [inl data]
  | [inl s] => [inl (s ++ data)]
  | x :: l => x :: AddData l data
  end.
Definition HandleData (children : list node) (data : str) : list node :=
  match data with [] => children | _ => AddData children data end.

(** Element.ContentChanged, structures.py 1770-1794 *)
Fixpoint changed_loop (data : list str) (children : list node) : list node :=
  match children with
  | [] => match data with [] => [] | _ => [inl (concat data)] end
  | inl s :: l => changed_loop (data ++ [s]) l
  | inr e :: l =>
      match data with
      | [] => inr e :: changed_loop [] l
      | _ => inl (concat data) :: inr e :: changed_loop [] l
      end
  end.
Definition ContentChanged (children : list node) : list node := changed_loop [] children.

(** ParseElement, parser.py 1209-1348; [content] is ParseContent, called with the children so far *)
Definition ParseElement (content : list node -> str -> result (list node * str)) (s : str)
  : result (tree * str) :=
  '(n, attrs, empty, r) <- ParseSTag s ;;
  if (empty : bool) then Ok (Elem n attrs (ContentChanged []), r)
  else
    '(children, r1) <- content [] r ;;
    '(n', r2) <- ParseETag r1 ;;
    if str_eqb n' n then Ok (Elem n attrs (ContentChanged children), r2) else Err XMLFatalError.

(** ParseContent, parser.py 1607-1684.  [children] are those of the current element.  A turn of the loop that
    consumes nothing, and so is repeated for ever, uses up the fuel. *)
Fixpoint ParseContent (fuel : nat) (children : list node) (s : str) : result (list node * str) :=
  match fuel with
  | O => Err OutOfFuel
  | S f =>
      match s with
      | [] => Ok (children, [])
      | c :: s1 =>
          if c =? 60 then
            match s1 with
            | d :: s2 =>
                if d =? 33 then
                  match s2 with
                  | x :: _ =>
                      if x =? 45 then
                        r <- ParseRequiredLiteral (lit "--") s2 ;;
                        r' <- ParseComment r ;;
                        ParseContent f children r'
                      else if x =? 91 then
                        r <- ParseRequiredLiteral (lit "[CDATA[") s2 ;;
                        '(data, r') <- ParseCDSect r ;;
                        ParseContent f (HandleData children data) r'
                      else Err XMLFatalError
                  | [] => Err XMLFatalError
                  end
                else if d =? 63 then r <- ParsePI s2 ;; ParseContent f children r
                else if negb (d =? 47) then
                  '(e, r) <- ParseElement (ParseContent f) s ;;
                  ParseContent f (children ++ [inr e]) r
                else Ok (children, s)
            | [] => '(e, r) <- ParseElement (ParseContent f) s ;; ParseContent f (children ++ [inr e]) r
            end
          else if c =? 38 then
            '(v, r) <- ParseReference s ;;
            ParseContent f (HandleData children [v]) r
          else
            let '(data, r) := ParseCharData s in
            ParseContent f (HandleData children data) r
      end
  end.

(** ** Documents *)

(** ParseMisc, parser.py 1039-1055 *)
Fixpoint ParseMisc (fuel : nat) (s : str) : result str :=
  match fuel with
  | O => Err OutOfFuel
  | S f =>
      if match s with c :: _ => IsS c | [] => false end then ParseMisc f (tl s)
      else match ParseLiteral (lit "<!--") s with
      | Some r => r' <- ParseComment r ;; ParseMisc f r'
      | None =>
          match ParseLiteral (lit "<?") s with
          | Some r => r' <- ParsePI r ;; ParseMisc f r'
          | None => Ok s
          end
      end
  end.

(** ParseVersionInfo, parser.py 1009-1025 *)
Definition ParseVersionInfo (s : str) : result str :=
  r <- ParseRequiredS s ;;
  r <- ParseRequiredLiteral (lit "version") r ;;
  r <- ParseEq r ;;
  '(q, r) <- ParseQuote r ;;
  r <- ParseRequiredLiteral (lit "1.") r ;;
  '(ds, r) <- ParseRequiredDigits dec_char r ;;
  ParseThisQuote q r.

(** EncNameStartCharClass and EncNameCharClass, structures.py 3186-3189 *)
Definition enc_start (c : Z) : bool := ((65 <=? c) && (c <=? 90)) || ((97 <=? c) && (c <=? 122)).
Definition enc_char (c : Z) : bool :=
  (c =? 45) || (c =? 46) || dec_char c || ((65 <=? c) && (c <=? 90)) || (c =? 95) || ((97 <=? c) && (c <=? 122)).

(** ParseEncodingDecl and ParseEncName, parser.py 2674-2706 *)
Definition ParseEncodingDecl (s : str) : result str :=
  r <- ParseEq s ;;
  '(q, r) <- ParseQuote r ;;
  match r with
  | c :: r1 =>
      if enc_start c then ParseThisQuote q (snd (take_while enc_char r1)) else Err XMLFatalError
  | [] => Err XMLFatalError
  end.

(** ParseSDDecl, parser.py 1189-1207 *)
Definition ParseSDDecl (s : str) : result str :=
  r <- ParseEq s ;;
  '(q, r) <- ParseQuote r ;;
  r' <- ParseRequiredLiteral
         (if match r with c :: _ => c =? 121 | [] => false end then lit "yes" else lit "no") r ;;
  ParseThisQuote q r'.

(** ParseXMLDecl, parser.py 977-1007, after "<?xml" *)
Definition ParseXMLDecl (s : str) : result str :=
  r <- ParseVersionInfo s ;;
  let '(sp, r) := ParseS r in
  r <- match sp with
       | [] => Ok r
       | _ =>
           match ParseLiteral (lit "encoding") r with
           | Some r =>
               r <- ParseEncodingDecl r ;;
               let '(sp, r) := ParseS r in
               match sp with
               | [] => Ok r
               | _ => match ParseLiteral (lit "standalone") r with
                      | Some r => ParseSDDecl r
                      | None => Ok r
                      end
               end
           | None => match ParseLiteral (lit "standalone") r with
                     | Some r => ParseSDDecl r
                     | None => Ok r
                     end
           end
       end ;;
  ParseRequiredLiteral (lit "?>") (snd (ParseS r)).

(** ParseProlog, parser.py 944-975 *)
Definition ParseProlog (fuel : nat) (s : str) : result str :=
  r <- match ParseLiteral (lit "<?xml") s with Some r => ParseXMLDecl r | None => Ok s end ;;
  r <- ParseMisc fuel r ;;
  match ParseLiteral (lit "<!DOCTYPE") r with
  | Some _ => Err Unmodelled
  | None => Ok r
  end.

(** ParseDocument, parser.py 401-437 *)
Definition ParseDocument (fuel : nat) (s : str) : result tree :=
  r <- ParseProlog fuel s ;;
  '(e, r) <- ParseElement (ParseContent fuel) r ;;
  r <- ParseMisc fuel r ;;
  match r with [] => Ok e | _ => Err XMLFatalError end.

(** Document.Read of a unicode string: structures.py 418-426 *)
Definition Read (fuel : nat) (s : str) : result tree := ParseDocument fuel (OpenUnicode s).
