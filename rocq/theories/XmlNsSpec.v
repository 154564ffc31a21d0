(** Namespaces in XML 1.0 (third edition): what names mean.  Nothing here uses the functions of the model; the types
    [tree] and [nelem] are shared. *)
From Coq Require Import Permutation.
From Verif Require Import Py XmlDoc XmlDocSpec XmlOutSpec.
From Verif Require Import XmlNs.
From Verif Require XmlCharsSpec.
Import XmlCharsSpec.
Open Scope Z_scope.
Open Scope list_scope.

Definition xml_uri : str := lit "http://www.w3.org/XML/1998/namespace".
Definition xmlns_uri : str := lit "http://www.w3.org/2000/xmlns/".

(** ** Names *)
(** An expanded name: the namespace, if there is one, and the local name *)
Definition xname : Type := (option str * str)%type.
(** NCName: a name without colon *)
Definition ncname (n : str) : Prop := name n /\ ~ In 58 n.
(** The attributes that declare: "xmlns" the default namespace (the prefix is empty), "xmlns:p" the prefix p *)
Definition declaration (k p : str) : Prop :=
  (k = lit "xmlns" /\ p = []) \/ (k = lit "xmlns:" ++ p /\ p <> []).
(** [bound scope p u]: the prefix is bound to the namespace by the nearest element that declares it; [scope] are the
    attributes of the element and of the elements around it, from the inside out. *)
Inductive bound : list (list (str * str)) -> str -> str -> Prop :=
| bo_here a up k p u : declaration k p -> In (k, u) a -> bound (a :: up) p u
| bo_up a up p u : (forall k, declaration k p -> ~ In k (map fst a)) -> bound up p u -> bound (a :: up) p u.
(** Section 3 and 5: "xml" and "xmlns" are reserved; a prefix cannot be undeclared. *)
Definition legal (a : list (str * str)) : Prop := forall k p u, declaration k p -> In (k, u) a ->
  p <> lit "xmlns" /\ u <> xmlns_uri /\ (p = lit "xml" <-> u = xml_uri) /\ (p <> [] -> ncname p /\ u <> []).
(** Section 6: the expanded name of an element ([default] is true) or of an attribute *)
Inductive resolves (scope : list (list (str * str))) : bool -> str -> xname -> Prop :=
| re_xml d l : ncname l -> resolves scope d (lit "xml:" ++ l) (Some xml_uri, l)
| re_prefix d p l u : ncname p -> ncname l -> p <> lit "xml" -> p <> lit "xmlns" -> bound scope p u -> u <> [] ->
    resolves scope d (p ++ lit ":" ++ l) (Some u, l)
| re_attribute l : ncname l -> resolves scope false l (None, l)
| re_default l u : ncname l -> bound scope [] u -> u <> [] -> resolves scope true l (Some u, l)
| re_none l : ncname l -> (forall u, bound scope [] u -> u = []) -> resolves scope true l (None, l).

(** ** Elements with expanded names *)
Inductive xtree : Type := XElem (name : xname) (attrs : list (xname * str)) (children : list (str + xtree)).
Inductive attributes_mean (scope : list (list (str * str))) : list (str * str) -> list (xname * str) -> Prop :=
| am_nil : attributes_mean scope [] []
| am_declaration k p v l x : declaration k p -> attributes_mean scope l x -> attributes_mean scope ((k, v) :: l) x
| am_attribute k n v l x : (forall p, ~ declaration k p) -> resolves scope false k n -> attributes_mean scope l x ->
    attributes_mean scope ((k, v) :: l) ((n, v) :: x).
(** [means scope t x]: the element [t], inside elements with the attributes [scope], is namespace-well-formed and
    [x] is it with its names expanded. *)
Inductive means : list (list (str * str)) -> tree -> xtree -> Prop :=
| me_elem scope q n a xa ch xch : NoDup (map fst a) -> legal a -> resolves (a :: scope) true q n -> attributes_mean (a :: scope) a xa ->
    NoDup (map fst xa) ->
    nodes_mean (a :: scope) ch xch -> means scope (Elem q a ch) (XElem n xa xch)
with nodes_mean : list (list (str * str)) -> list node -> list (str + xtree) -> Prop :=
| nm_nil scope : nodes_mean scope [] []
| nm_text scope s l x : nodes_mean scope l x -> nodes_mean scope (inl s :: l) (inl s :: x)
| nm_elem scope e y l x : means scope e y -> nodes_mean scope l x -> nodes_mean scope (inr e :: l) (inr y :: x).

(** ** The elements of pyslet *)
(** None, or the empty string, is no namespace for an element; "~" is none for an attribute. *)
Definition element_ns (ns : option str) : option str := match ns with Some [] => None | _ => ns end.
Definition attribute_ns (ns : option str) : option str :=
  match ns with Some u => if str_eqb u (lit "~") then None else Some u | None => None end.
Fixpoint expanded (t : nelem) : xtree :=
  match t with
  | NElem ns n a _ ch =>
      XElem (element_ns ns, n) (map (fun '((u, k), v) => ((attribute_ns u, k), v)) a)
        (map (fun c => match c with inl s => inl s | inr e => inr (expanded e) end) ch)
  end.
(** Every element of [t]: its namespace and name, its attributes, its maps, its children satisfy [P]. *)
Inductive throughout (P : option str -> str -> list ((option str * str) * str) -> maps -> list (str + nelem) -> Prop) : nelem -> Prop :=
| th ns n a m ch : P ns n a m ch -> (forall e, In (inr e) ch -> throughout P e) -> throughout P (NElem ns n a m ch).
(** Texts are not empty and not side by side. *)
Inductive apart {E} : list (str + E) -> Prop :=
| ap_nil : apart []
| ap_text s : s <> [] -> apart [inl s]
| ap_elem e l : apart l -> apart (inr e :: l)
| ap_both s e l : s <> [] -> apart l -> apart (inl s :: inr e :: l).
Definition bmp_ncname (n : str) : Prop := bmp_name n /\ ~ In 58 n.
Definition line (v : str) : Prop := Forall char v /\ ~ In 9 v /\ ~ In 10 v.
(** A namespace of an element or an attribute *)
Definition namespace (u : str) : Prop := line u /\ u <> [] /\ u <> lit "~" /\ u <> xmlns_uri.
(** Elements that can be written *)
Definition proper : nelem -> Prop := throughout (fun ns n a _ ch =>
  bmp_ncname n /\ (forall u, element_ns ns = Some u -> namespace u) /\
  NoDup (map (fun x => (attribute_ns (fst (fst x)), snd (fst x))) a) /\
  (forall u k v, In ((u, k), v) a -> bmp_ncname k /\ line v /\
     (forall w, attribute_ns u = Some w -> namespace w) /\ (attribute_ns u = None -> k <> lit "xmlns")) /\
  apart ch /\ (forall s, In (inl s) ch -> Forall char s)).
(** Elements made without prefixes *)
Definition fresh : nelem -> Prop := throughout (fun _ _ _ m _ => m = Maps [] []).
(** The namespaces used for elements, and for attributes *)
Inductive element_in (u : str) : nelem -> Prop :=
| ei_here n a m ch : element_in u (NElem (Some u) n a m ch)
| ei_inside ns n a m ch e : In (inr e) ch -> element_in u e -> element_in u (NElem ns n a m ch).
Inductive attribute_in (u : str) : nelem -> Prop :=
| ai_here ns n a m ch k v : In ((Some u, k), v) a -> attribute_in u (NElem ns n a m ch)
| ai_inside ns n a m ch e : In (inr e) ch -> attribute_in u e -> attribute_in u (NElem ns n a m ch).
(** No element without namespace is inside one with a namespace ([inside] is true inside such an element). *)
Inductive placed : bool -> nelem -> Prop :=
| pl_elem inside ns n a m ch : (inside = true -> element_ns ns <> None) ->
    (forall e, In (inr e) ch -> placed (match element_ns ns with None => false | Some _ => true end) e) ->
    placed inside (NElem ns n a m ch).

(** ** Canonical form: as for elements without namespaces; the order of the attributes is not part of it. *)
Definition xkeeps (outer : bool) (attrs : list (xname * str)) (p : bool) : Prop :=
  (exists v, In ((Some xml_uri, lit "space"), v) attrs /\ (p = true <-> v = lit "preserve")) \/
  (~ In (Some xml_uri, lit "space") (map fst attrs) /\ p = outer).
Inductive xcanonical : bool -> xtree -> xtree -> Prop :=
| xc_elem outer n a a' ch ch' p : xkeeps outer a p -> Permutation a a' ->
    xcanonical_nodes p (if p then ch else canonical_list ch) ch' ->
    xcanonical outer (XElem n a ch) (XElem n a' ch')
with xcanonical_nodes : bool -> list (str + xtree) -> list (str + xtree) -> Prop :=
| xn_nil p : xcanonical_nodes p [] []
| xn_text p s l l' : xcanonical_nodes p l l' -> xcanonical_nodes p (inl s :: l) (inl s :: l')
| xn_elem p e e' l l' : xcanonical p e e' -> xcanonical_nodes p l l' -> xcanonical_nodes p (inr e :: l) (inr e' :: l').

(** ** Documents whose names pyslet reads *)
Definition begins_with (p s : str) : Prop := exists r, s = p ++ r.
(** The default namespace is not undeclared, no namespace is "~", no other attribute has a name that begins with
    "xmlns", and no element has the name "xmlns". *)
Inductive simple : tree -> Prop :=
| si_elem q a ch : q <> lit "xmlns" ->
    (forall k p u, declaration k p -> In (k, u) a -> u <> [] /\ u <> lit "~") ->
    (forall k u, In (k, u) a -> begins_with (lit "xmlns") k -> exists p, declaration k p) ->
    (forall e, In (inr e) ch -> simple e) -> simple (Elem q a ch).
(** Elements that are written so: none has the name "xmlns" and no attribute without namespace a name that begins
    with it. *)
Definition plainly : nelem -> Prop := throughout (fun _ n a _ _ => n <> lit "xmlns" /\
  forall u k v, In ((u, k), v) a -> attribute_ns u = None -> ~ begins_with (lit "xmlns") k).
(** Nothing declares "xml" or a prefix that begins with "xmlns", and no element has the local name "xmlns". *)
Inductive usual : tree -> Prop :=
| us_elem q a ch : (forall p, q <> p ++ lit ":xmlns") ->
    (forall k p u, declaration k p -> In (k, u) a -> p <> lit "xml" /\ ~ begins_with (lit "xmlns") p) ->
    (forall e, In (inr e) ch -> usual e) -> usual (Elem q a ch).
(** No element declares a namespace twice, and no attribute with a prefix is in the default namespace around it. *)
Inductive unambiguous : list (list (str * str)) -> tree -> Prop :=
| un_elem scope q a ch :
    (forall k p k' p' u, declaration k p -> declaration k' p' -> In (k, u) a -> In (k', u) a -> k = k') ->
    (forall p l v u, In (p ++ lit ":" ++ l, v) a -> ncname p -> bound (a :: scope) p u -> ~ bound (a :: scope) [] u) ->
    (forall e, In (inr e) ch -> unambiguous (a :: scope) e) -> unambiguous scope (Elem q a ch).
(** Names of the basic plane, characters of XML, and values on one line *)
Definition fair : tree -> Prop := every bmp_name (fun k v => bmp_name k /\ line v) (Forall char).
