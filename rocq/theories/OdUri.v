(** Model of the URIs of OData services: pyslet/pyslet/odata2/core.py 1234-1260, 1288-1336 ($expand
    and $select), 1538-1550 (ParseURILiteral), 1602-1752 (options), 1753-1772 (FormatExpand),
    1774-2007 (ODataURI), 2013-2014 and 2507-2516 (locations; metadata.py 119-126), server.py 191-195 (requests).

    Simplifications.
    - A dictionary is the list of its items in the order in which they came; sysQueryOptions and
      paramTable keep the last value of a name.
    - The values of $filter, $orderby and $format are read by a parameter; their errors other than
      ValueError are those of the parameter.
    - str.strip() removes ASCII white space and lower() changes ASCII letters only.
    - The names and literals of a path are octets: a URI has no others.  decode('utf-8') raises a
      ValueError; surrogates are decoded, as in Python 2.
    - $expand and $select are read as paths before they are put in the dictionary.
    - The messages of exceptions are left out. *)
From Verif Require Import Py Iso Dec Shapes XmlChars Xsd Imscp Uri OdExpr.
Open Scope Z_scope.
Open Scope list_scope.

(** ** str.encode('utf-8') and str.decode('utf-8') *)
Definition utf8_1 (c : Z) : str :=
  if c <? 0x80 then [c]
  else if c <? 0x800 then [0xC0 + c / 0x40; 0x80 + c mod 0x40]
  else if c <? 0x10000 then [0xE0 + c / 0x1000; 0x80 + (c / 0x40) mod 0x40; 0x80 + c mod 0x40]
  else [0xF0 + c / 0x40000; 0x80 + (c / 0x1000) mod 0x40; 0x80 + (c / 0x40) mod 0x40; 0x80 + c mod 0x40].
Definition utf8 (s : str) : str := flat_map utf8_1 s.
Definition trail (b : Z) : bool := (0x80 <=? b) && (b <? 0xC0).
Definition cons_ok (c : Z) (r : result str) : result str := s <- r ;; Ok (c :: s).
Fixpoint of_utf8 (s : str) : result str :=
  match s with
  | [] => Ok []
  | a :: s1 =>
      if a <? 0x80 then cons_ok a (of_utf8 s1)
      else if a <? 0xC2 then Err ValueError
      else if a <? 0xE0 then
        match s1 with
        | b :: s2 => if trail b then cons_ok ((a - 0xC0) * 0x40 + (b - 0x80)) (of_utf8 s2) else Err ValueError
        | _ => Err ValueError
        end
      else if a <? 0xF0 then
        match s1 with
        | b :: c :: s2 =>
            let v := (a - 0xE0) * 0x1000 + (b - 0x80) * 0x40 + (c - 0x80) in
            if trail b && trail c && (0x800 <=? v) then cons_ok v (of_utf8 s2) else Err ValueError
        | _ => Err ValueError
        end
      else if a <? 0xF5 then
        match s1 with
        | b :: c :: d :: s2 =>
            let v := (a - 0xF0) * 0x40000 + (b - 0x80) * 0x1000 + (c - 0x80) * 0x40 + (d - 0x80) in
            if trail b && trail c && trail d && (0x10000 <=? v) && (v <? 0x110000) then cons_ok v (of_utf8 s2) else Err ValueError
        | _ => Err ValueError
        end
      else Err ValueError
  end.

(** ** Options *)
(** 1602-1626 SystemQueryOption *)
Inductive sysopt : Set := SExpand | SFilter | SOrderby | SFormat | SSkip | STop | SSkiptoken | SInlinecount | SSelect.
Definition sysopt_name (o : sysopt) : str :=
  match o with
  | SExpand => lit "expand" | SFilter => lit "filter" | SOrderby => lit "orderby" | SFormat => lit "format"
  | SSkip => lit "skip" | STop => lit "top" | SSkiptoken => lit "skiptoken" | SInlinecount => lit "inlinecount"
  | SSelect => lit "select"
  end.
Definition sysopts : list sysopt := [SExpand; SFilter; SOrderby; SFormat; SSkip; STop; SSkiptoken; SInlinecount; SSelect].
Definition sysopt_eqb (a b : sysopt) : bool := str_eqb (sysopt_name a) (sysopt_name b).
(** SystemQueryOption.DecodeValue *)
Definition sysopt_of (s : str) : result sysopt :=
  match find (fun o => str_eqb (sysopt_name o) (strip s)) sysopts with Some o => Ok o | None => Err ValueError end.
(** 1641-1659 PathOption *)
Inductive pathopt : Set := PMetadata | PBatch | PCount | PValue | PLinks.
Definition pathopt_name (o : pathopt) : str :=
  match o with
  | PMetadata => lit "metadata" | PBatch => lit "batch" | PCount => lit "count" | PValue => lit "value" | PLinks => lit "links"
  end.
Definition pathopts : list pathopt := [PMetadata; PBatch; PCount; PValue; PLinks].
Definition pathopt_eqb (a b : pathopt) : bool := str_eqb (pathopt_name a) (pathopt_name b).
(** PathOption.DecodeLowerValue *)
Definition pathopt_of (s : str) : result pathopt :=
  match find (fun o => str_eqb (pathopt_name o) (OdExpr.lower (strip s))) pathopts with Some o => Ok o | None => Err ValueError end.
(** 1626-1638 InlineCount.DecodeLowerValue: true for allpages *)
Definition inlinecount_of (s : str) : result bool :=
  let s := OdExpr.lower (strip s) in
  if str_eqb s (lit "allpages") then Ok true else if str_eqb s (lit "none") then Ok false else Err ValueError.

(** 1680-1750 SupportedSystemQueryOptions, for the forms that ODataURI checks *)
Definition supported (form : Z) : list sysopt :=
  if form =? 7 then [SFormat; SSkip; STop; SSkiptoken; SInlinecount]
  else if form =? 15 then [SExpand; SFilter; SOrderby; SSkip; STop]
  else if form =? 16 then [SExpand; SFilter]
  else [].                                                        (* 8, 9 *)

(** ** $expand and $select *)
(** The values of these dictionaries: None or a dictionary *)
Inductive sel : Set := Leaf | Branch (l : list (str * sel)).
Notation dict := (list (str * sel)).
Definition sub_dict (s : sel) : dict := match s with Leaf => [] | Branch l => l end.
Fixpoint get (n : str) (d : dict) : option sel :=
  match d with [] => None | (m, s) :: d' => if str_eqb m n then Some s else get n d' end.
Fixpoint put (n : str) (v : sel) (d : dict) : dict :=
  match d with [] => [(n, v)] | (m, s) :: d' => if str_eqb m n then (m, v) :: d' else (m, s) :: put n v d' end.
(** 1240-1254, 1305-1320: the path [n :: p] is put in the dictionary *)
Fixpoint add_path (n : str) (p : list str) (d : dict) : dict :=
  match p with
  | [] => match get n d with Some _ => d | None => put n Leaf d end
  | m :: p' => put n (Branch (add_path m p' match get n d with Some s => sub_dict s | None => [] end)) d
  end.

Section ODataUri.
(** As in OdExpr *)
Variable X : Type.
Variable number : edm_type -> numeric -> result X.
Variable quoted : edm_type -> str -> result (X * str).
Variable show : edm_type -> X -> str.
Variable start_class id_class : Z -> bool.
Notation value := (value X).
Notation ident := (ParseSimpleIdentifier start_class id_class).

(** 1234-1260 ParseExpandOption.  The rest of a path after its first name *)
Fixpoint expand_path (fuel : nat) (s : str) : result (list str * str) :=
  match fuel with
  | O => Err OutOfFuel
  | S f =>
      match s with
      | 47 :: s1 =>
          match ident s1 with
          | Some (n, s2) => '(p, s3) <- expand_path f s2 ;; Ok (n :: p, s3)
          | None => Err ValueError
          end
      | _ => Ok ([], s)
      end
  end.
Fixpoint expand_loop (fuel : nat) (d : dict) (s : str) : result dict :=
  match fuel with
  | O => Err OutOfFuel
  | S f =>
      match ident s with
      | None => Err ValueError
      | Some (n, s1) =>
          '(p, s2) <- expand_path (S (length s)) s1 ;;
          let d := add_path n p d in
          match s2 with
          | 44 :: s3 => expand_loop f d s3
          | [] => Ok d
          | _ => Err ValueError                                   (* RequireEnd *)
          end
      end
  end.
Definition ParseExpandOption (s : str) : result dict := expand_loop (S (length s)) [] s.

(** 1328-1335 ParseStarOrIdentifier *)
Definition star_or_ident (s : str) : result (str * str) :=
  match wsp s with
  | 42 :: s1 => Ok ([42], s1)
  | s1 => match ident s1 with Some x => Ok x | None => Err ValueError end
  end.
Definition is_star (n : str) : bool := str_eqb n [42].
(** 1294-1326 ParseSelectOption *)
Fixpoint select_path (fuel : nat) (n : str) (s : str) : result (list str * str) :=
  match fuel with
  | O => Err OutOfFuel
  | S f =>
      match is_star n, s with
      | false, 47 :: s1 => '(m, s2) <- star_or_ident s1 ;; '(p, s3) <- select_path f m s2 ;; Ok (m :: p, s3)
      | _, _ => Ok ([], s)
      end
  end.
Fixpoint select_loop (fuel : nat) (d : dict) (s : str) : result dict :=
  match fuel with
  | O => Err OutOfFuel
  | S f =>
      '(n, s1) <- star_or_ident (wsp s) ;;
      '(p, s2) <- select_path (S (length s)) n s1 ;;
      let d := add_path n p d in
      match wsp s2 with
      | 44 :: s3 => select_loop f d s3
      | [] => Ok d
      | _ => Err ValueError
      end
  end.
Definition ParseSelectOption (s : str) : result dict := select_loop (S (length s)) [] s.

(** 1759-1767 _FormatExpandList, 1753-1757 FormatExpand, 1769-1771 FormatSelect *)
Fixpoint sel_texts (n : str) (v : sel) : list str :=
  match v with
  | Leaf | Branch [] => [n]
  | Branch l => map (fun x => n ++ 47 :: x) (flat_map (fun p => sel_texts (fst p) (snd p)) l)
  end.
Definition FormatExpandList (d : dict) : list str := flat_map (fun p => sel_texts (fst p) (snd p)) d.
(** Strings are compared as Python does *)
Fixpoint str_leb (a b : str) : bool :=
  match a, b with
  | [], _ => true
  | _, [] => false
  | x :: a', y :: b' => (x <? y) || ((x =? y) && str_leb a' b')
  end.
Fixpoint insert_str (a : str) (l : list str) : list str :=
  match l with [] => [a] | b :: l' => if str_leb a b then a :: l else b :: insert_str a l' end.
Definition sort_str (l : list str) : list str := fold_right insert_str [] l.
Definition FormatExpand (d : dict) : str := join [44] (sort_str (FormatExpandList d)).
Definition FormatSelect := FormatExpand.

(** ** ODataURI *)
Inductive uexn : Set := InvalidSystemQueryOption | InvalidPathOption | Other (e : exn).
Inductive ures (A : Type) : Type := UOk (a : A) | UErr (e : uexn).
Arguments UOk {A}. Arguments UErr {A}.
Definition ubind {A B} (r : ures A) (k : A -> ures B) : ures B := match r with UOk a => k a | UErr e => UErr e end.
Definition lift {A} (r : result A) : ures A := match r with Ok a => UOk a | Err e => UErr (Other e) end.
Notation "x <~ e ;; k" := (ubind e (fun x => k)) (at level 61, e at next level, right associativity).
Notation "' p <~ e ;; k" := (ubind e (fun p => k)) (at level 61, p pattern, e at next level, right associativity).

(** The values of system query options *)
Variable V : Type.
Variable read_option : sysopt -> str -> result V.                 (* $filter, $orderby and $format *)
Inductive optval : Type := OV (v : V) | ONum (n : Z) | OStr (s : str) | OCount (all : bool) | OSel (d : dict).

(** ParseInteger and RequireEnd *)
Definition integer_of (s : str) : result Z :=
  match run is_digit s with (d :: l, []) => Ok (dval (d :: l)) | _ => Err ValueError end.
(** 1881-1931 ParseSystemQueryOption *)
Definition option_value (o : sysopt) (s : str) : result optval :=
  match o with
  | SFilter | SOrderby | SFormat => v <- read_option o s ;; Ok (OV v)
  | SExpand => d <- ParseExpandOption s ;; Ok (OSel d)
  | SSelect => d <- ParseSelectOption s ;; Ok (OSel d)
  | SSkip | STop => n <- integer_of s ;; Ok (ONum n)
  | SInlinecount => b <- inlinecount_of s ;; Ok (OCount b)
  | SSkiptoken => Ok (OStr s)
  end.
Definition ParseSystemQueryOption (name v : str) : ures (sysopt * optval) :=
  match (o <- sysopt_of name ;; x <- option_value o v ;; Ok (o, x)) with
  | Ok r => UOk r
  | Err ValueError => UErr InvalidSystemQueryOption
  | Err e => UErr (Other e)
  end.

(** 1538-1550 ParseURILiteral of octets: a text is decoded (1400-1401) *)
Definition RawLiteral (s : str) : result value :=
  r <- ParseURILiteral X number quoted start_class id_class s ;;
  match r with
  | Some (v, []) =>
      match v with
      | mkV t (Some (PStr b)) => u <- of_utf8 b ;; Ok (mkV t (Some (PStr u)))
      | v => Ok v
      end
  | _ => Err ValueError
  end.

(** A segment of the path: its name and its key predicate *)
Notation segment := (str * option (list (str * value)))%type.
(** s.index(c): what is before and after the first c *)
Fixpoint cut_at (c : Z) (s : str) : option (str * str) :=
  match s with
  | [] => None
  | x :: s' => if x =? c then Some ([], s') else match cut_at c s' with Some (a, b) => Some (x :: a, b) | None => None end
  end.
Definition unescaped (s : str) : result str := of_utf8 (UnescapeData s).
Fixpoint set_key {A} (k : str) (v : A) (d : list (str * A)) : list (str * A) :=
  match d with [] => [(k, v)] | (m, w) :: d' => if str_eqb m k then (m, v) :: d' else (m, w) :: set_key k v d' end.
(** 1957-1964 *)
Fixpoint key_loop (keys : list str) (d : list (str * value)) : result (list (str * value)) :=
  match keys with
  | [] => Ok d
  | k :: keys' =>
      match split_on 61 k with
      | [n; v] => n <- unescaped n ;; v <- RawLiteral v ;; key_loop keys' (set_key n v d)
      | _ => Err ValueError
      end
  end.
(** 1939-1967 SplitSegment *)
Definition SplitSegment (s : str) : result segment :=
  match s with
  | 36 :: _ => Ok (s, None)
  | _ =>
      match cut_at 40 s, last s 0 =? 41 with
      | Some (n, k), true =>
          name <- unescaped n ;;
          match removelast k with
          | [] => Ok (name, Some [])
          | keys =>
              match split_on 44 keys with
              | [k1] => if mem 61 k1 then d <- key_loop [k1] [] ;; Ok (name, Some d)
                        else v <- RawLiteral k1 ;; Ok (name, Some [([], v)])
              | l => d <- key_loop l [] ;; Ok (name, Some d)
              end
          end
      | _, _ => name <- unescaped s ;; Ok (name, None)
      end
  end.

(** What is known of the resource path: navPath, pathOption, linksProperty *)
Record path := mkPath { p_nav : list segment; p_option : option pathopt; p_links : option str }.
Definition is_option (o : pathopt) (p : path) : bool := match p_option p with Some o' => pathopt_eqb o o' | None => false end.
Definition is_dollar (s : str) : bool := match s with 36 :: _ => true | _ => false end.
(** 1840-1865: one segment *)
Definition path_step (p : path) (s : str) : ures path :=
  if is_option PLinks p then
    match p_links p with
    | Some _ => UErr InvalidPathOption
    | None =>
        if is_dollar s then UErr InvalidPathOption
        else x <~ lift (SplitSegment s) ;; UOk (mkPath (p_nav p ++ [x]) (p_option p) (Some (fst x)))
    end
  else if is_dollar s then
    o <~ lift (pathopt_of (tl s)) ;;                              (* a ValueError, not a KeyError *)
    match p_option p with
    | Some _ => UErr InvalidPathOption
    | None =>
        if match p_nav p with [] => false | _ => true end && (is_option PBatch p || is_option PMetadata p) then UErr InvalidPathOption
        else if is_option PLinks p && match p_nav p with [] => true | _ => false end then UErr InvalidPathOption
        else UOk (mkPath (p_nav p) (Some o) (p_links p))
    end
  else if is_option PCount p || is_option PValue p || is_option PBatch p || is_option PMetadata p then UErr InvalidPathOption
  else x <~ lift (SplitSegment s) ;; UOk (mkPath (p_nav p ++ [x]) (p_option p) (p_links p)).
Fixpoint path_loop (p : path) (l : list str) : ures path :=
  match l with [] => UOk p | s :: l' => p <~ path_step p s ;; path_loop p l' end.
(** 1834-1867 *)
Definition read_path (resource : str) : ures path :=
  if str_eqb resource [47] then UOk (mkPath [] None None)
  else p <~ path_loop (mkPath [] None None) (tl (split_on 47 resource)) ;;
       if is_option PLinks p && match p_links p with None => true | _ => false end then UErr InvalidPathOption else UOk p.

(** 1816-1831: the query.  System query options, other options and paramTable *)
Record uquery := mkQuery { q_sys : list (sysopt * optval); q_other : list str; q_params : list (str * nat) }.
Fixpoint set_opt (o : sysopt) (v : optval) (d : list (sysopt * optval)) : list (sysopt * optval) :=
  match d with [] => [(o, v)] | (m, w) :: d' => if sysopt_eqb m o then (m, v) :: d' else (m, w) :: set_opt o v d' end.
Definition query_step (q : uquery) (s : str) : ures uquery :=
  match s with
  | 36 :: s' =>
      match cut_at 61 s' with
      | None => UErr (Other ValueError)
      | Some (n, v) =>
          n <~ lift (unescaped n) ;; v <~ lift (unescaped v) ;;
          '(o, x) <~ ParseSystemQueryOption n v ;;
          UOk (mkQuery (set_opt o x (q_sys q)) (q_other q) (q_params q))
      end
  | _ =>
      match cut_at 61 s with
      | Some (n, _) =>
          n <~ lift (unescaped n) ;;
          UOk (mkQuery (q_sys q) (q_other q ++ [s]) (set_key n (length (q_other q)) (q_params q)))
      | None => UOk (mkQuery (q_sys q) (q_other q ++ [s]) (q_params q))
      end
  end.
Fixpoint query_loop (q : uquery) (l : list str) : ures uquery :=
  match l with [] => UOk q | s :: l' => q <~ query_step q s ;; query_loop q l' end.
Definition read_query (s : option str) : ures uquery :=
  match s with None => UOk (mkQuery [] [] []) | Some s => query_loop (mkQuery [] [] []) (split_on 38 s) end.

(** 1933-1937 ValidateSystemQueryOptions *)
Definition validate (form : Z) (q : uquery) : ures unit :=
  if forallb (fun p => existsb (sysopt_eqb (fst p)) (supported form)) (q_sys q) then UOk tt else UErr InvalidSystemQueryOption.
(** 1868-1879 *)
Definition last_key (p : path) : bool :=
  match last (p_nav p) ([], None) with (_, Some (_ :: _)) => true | _ => false end.
Definition check_options (p : path) (q : uquery) : ures unit :=
  match p_option p with
  | Some PLinks => validate 7 q
  | Some PMetadata => validate 8 q
  | Some PBatch => validate 9 q
  | Some PCount => if last_key p then validate 16 q else validate 15 q
  | Some PValue | None => UOk tt
  end.

(** resourcePath, None if the URI is not one of the service *)
Record request := mkRequest { r_resource : option str; r_path : path; r_query : uquery }.
(** 1792-1879 __init__, with a URI *)
Definition ODataURI (u : uri) (prefix : str) : ures request :=
  u <~ (match absPath u with
        | Some _ => UOk u
        | None => b <~ lift (URI (prefix ++ [47])) ;; lift (Resolve u b)
        end) ;;
  match absPath u with
  | None => UErr (Other ValueError)
  | Some a =>
      if negb (str_eqb (firstn (length prefix) a) prefix) then UOk (mkRequest None (mkPath [] None None) (mkQuery [] [] []))
      else
        q <~ read_query (Uri.query u) ;;
        let resource := skipn (length prefix) a in
        p <~ read_path resource ;;
        _ <~ check_options p q ;;
        UOk (mkRequest (Some resource) p q)
  end.
(** with a string *)
Definition ODataURI_text (s prefix : str) : ures request := u <~ lift (URI s) ;; ODataURI u prefix.
(** server.py 190-195: the request of a WSGI environment.  PATH_INFO is unescaped by the web server *)
Definition server_request (script path_info : str) (query : option str) (prefix : str) : ures request :=
  ODataURI_text (script ++ path_info ++ match query with Some q => 63 :: q | None => [] end) prefix.

(** 1969-1975 GetParamValue *)
Definition GetParamValue (q : uquery) (name : str) : result value :=
  match find (fun p => str_eqb (fst p) name) (q_params q) with
  | Some (_, i) =>
      match nth_error (q_other q) i with
      | Some s => match cut_at 61 s with Some (_, v) => RawLiteral v | None => Err ValueError end
      | None => Err IndexError
      end
  | None => Err KeyError
  end.

(** 1977-1989 FormatKeyDict *)
Definition key_text (d : list (str * value)) : str :=
  40 :: match d with
        | [(_, v)] => literal_text X show v
        | _ => join [44] (map (fun p => fst p ++ 61 :: literal_text X show (snd p)) d)
        end ++ [41].
Definition FormatKeyDict (d : list (str * value)) : str := EscapeData IsReserved (utf8 (key_text d)).
(** metadata.py 119-126 EntitySet.SetLocation, csdl.py 3732-3748 and core.py 2013-2014 GetLocation: the
    path of an entity.  The name of the entity set is not escaped *)
Definition location_path (prefix name : str) (d : list (str * value)) : str := prefix ++ 47 :: name ++ FormatKeyDict d.
(** core.py 2507-2516: the path of a navigation property of an entity *)
Definition navigation_path (prefix name : str) (d : list (str * value)) (nav : str) : str :=
  location_path prefix name d ++ 47 :: EscapeData IsReserved nav.
(** 2000-2007 FormatSysQueryOptions *)
Definition FormatSysQueryOptions (l : list (sysopt * str)) : str :=
  join [38] (map (fun p => 36 :: sysopt_name (fst p) ++ 61 :: EscapeData IsReserved (utf8 (snd p))) l).
End ODataUri.
Arguments UOk {A}. Arguments UErr {A}.
