(** The canonical form of elements, in words, and which elements a document can hold.  Nothing here uses the
    functions of the model that write or compare. *)
From Verif Require Import Py XmlDoc XmlDocSpec.
From Verif Require XmlCharsSpec.
Import XmlCharsSpec.
Open Scope Z_scope.
Open Scope list_scope.

Definition is_space (c : Z) : bool := (c =? 32) || (c =? 9) || (c =? 10) || (c =? 13).

(** ** White space in text *)
Definition blank (s : str) : bool := forallb is_space s.
Definition starts_spaced (s : str) : bool := match s with c :: _ => is_space c | [] => false end.
Definition ends_spaced (s : str) : bool := starts_spaced (rev s).
(** The words of a text with one space between them, and a space at an end where there was white space and
    [left], [right] say that it is kept. *)
Definition squeeze (left right : bool) (s : str) : str :=
  (if left && starts_spaced s then [32] else []) ++ spaced (words is_space s) ++ (if right && ends_spaced s then [32] else []).

(** ** Canonical children *)
Section Children.
Context {E : Type}.
(** Texts side by side are one. *)
Fixpoint merged (l : list (str + E)) : list (str + E) :=
  match l with
  | [] => []
  | inl s :: l' => match merged l' with inl u :: m => inl (s ++ u) :: m | m => inl s :: m end
  | inr e :: l' => inr e :: merged l'
  end.
(** After the start: white space is kept as one space, except at the end. *)
Fixpoint later (l : list (str + E)) : list (str + E) :=
  match l with
  | [] => []
  | [inl s] => if blank s then [] else [inl (squeeze true false s)]
  | inl s :: l' => inl (if blank s then [32] else squeeze true true s) :: later l'
  | inr e :: l' => inr e :: later l'
  end.
(** At the start, white space is dropped; a text alone keeps a space at its end. *)
Definition canonical_list (l : list (str + E)) : list (str + E) :=
  match merged l with
  | [inl s] => [inl (if blank s then [32] else squeeze false true s)]
  | inl s :: m => (if blank s then [] else [inl (squeeze false true s)]) ++ later m
  | m => later m
  end.
End Children.

(** ** Canonical elements *)
(** xml:space of the element, or else of the nearest element around it that has it *)
Definition keeps (outer : bool) (attrs : list (str * str)) (p : bool) : Prop :=
  (exists v, In (lit "xml:space", v) attrs /\ (p = true <-> v = lit "preserve")) \/
  (~ In (lit "xml:space") (map fst attrs) /\ p = outer).
Inductive text_before : str -> str -> Prop :=
| tb_nil c s : text_before [] (c :: s)
| tb_less c d s u : c < d -> text_before (c :: s) (d :: u)
| tb_same c s u : text_before s u -> text_before (c :: s) (c :: u).
Inductive ascending : list (str * str) -> Prop :=
| asc_nil : ascending []
| asc_cons k v l : (forall k' v', In (k', v') l -> text_before k k') -> ascending l -> ascending ((k, v) :: l).

(** [canonical outer t u]: [u] is [t] with its attributes in order and its children canonical, and so for the elements
    inside; white space is left alone where xml:space says so. *)
Inductive canonical : bool -> tree -> tree -> Prop :=
| ca_elem outer n attrs attrs' children children' p : keeps outer attrs p ->
    ascending attrs' -> (forall x, In x attrs' <-> In x attrs) ->
    canonical_nodes p (if p then children else canonical_list children) children' ->
    canonical outer (Elem n attrs children) (Elem n attrs' children')
with canonical_nodes : bool -> list node -> list node -> Prop :=
| cn_nil p : canonical_nodes p [] []
| cn_text p s l l' : canonical_nodes p l l' -> canonical_nodes p (inl s :: l) (inl s :: l')
| cn_elem p e e' l l' : canonical p e e' -> canonical_nodes p l l' -> canonical_nodes p (inr e :: l) (inr e' :: l').

(** ** Elements of a document *)
(** The attributes are a dictionary. *)
Definition dictionary (attrs : list (str * str)) : Prop := NoDup (map fst attrs).
(** Texts are not empty and not side by side: so it is when text is added to an element. *)
Inductive separate : list node -> Prop :=
| se_nil : separate []
| se_text s : s <> [] -> separate [inl s]
| se_elem e l : separate l -> separate (inr e :: l)
| se_both s e l : s <> [] -> separate l -> separate (inl s :: inr e :: l).
(** [ok k v] of every attribute, [okt s] of every text *)
Inductive every (okn : str -> Prop) (ok : str -> str -> Prop) (okt : str -> Prop) : tree -> Prop :=
| ev n attrs children : okn n -> dictionary attrs -> (forall k v, In (k, v) attrs -> ok k v) -> separate children ->
    (forall s, In (inl s) children -> okt s) -> (forall e, In (inr e) children -> every okn ok okt e) ->
    every okn ok okt (Elem n attrs children).
(** Elements that can be written: names are names, characters are characters of XML. *)
Definition writable : tree -> Prop :=
  every bmp_name (fun k v => bmp_name k /\ Forall char v) (Forall char).
(** Any dictionaries and any texts that are separate *)
Definition tidy : tree -> Prop := every (fun _ => True) (fun _ _ => True) (fun _ => True).
(** No tab and no line end in the values of attributes *)
Definition one_line : tree -> Prop := every (fun _ => True) (fun _ v => ~ In 9 v /\ ~ In 10 v) (fun _ => True).
(** Every tab and every line end in the value of an attribute made a space *)
Definition flat_char (c : Z) : Z := if (c =? 9) || (c =? 10) then 32 else c.
Fixpoint flat (t : tree) : tree :=
  match t with
  | Elem n attrs children =>
      Elem n (map (fun '(k, v) => (k, map flat_char v)) attrs)
        (map (fun c => match c with inl s => inl s | inr e => inr (flat e) end) children)
  end.

(** US-ASCII *)
Definition ascii (s : str) : Prop := Forall (fun c => 0 <= c <= 127) s.
Definition ascii_names : tree -> Prop := every ascii (fun k _ => ascii k) (fun _ => True).

(** ** The order of elements: by name, then attributes, then children; an element comes before a text. *)
Inductive attrs_before : list (str * str) -> list (str * str) -> Prop :=
| ab_nil x l : attrs_before [] (x :: l)
| ab_name k v k' v' l l' : text_before k k' -> attrs_before ((k, v) :: l) ((k', v') :: l')
| ab_value k v v' l l' : text_before v v' -> attrs_before ((k, v) :: l) ((k, v') :: l')
| ab_same x l l' : attrs_before l l' -> attrs_before (x :: l) (x :: l').
Inductive before : tree -> tree -> Prop :=
| be_name n n' a a' l l' : text_before n n' -> before (Elem n a l) (Elem n' a' l')
| be_attrs n a a' l l' : attrs_before a a' -> before (Elem n a l) (Elem n a' l')
| be_children n a l l' : nodes_before l l' -> before (Elem n a l) (Elem n a l')
with nodes_before : list node -> list node -> Prop :=
| nb_nil x l : nodes_before [] (x :: l)
| nb_kind e s l l' : nodes_before (inr e :: l) (inl s :: l')
| nb_text s s' l l' : text_before s s' -> nodes_before (inl s :: l) (inl s' :: l')
| nb_elem e e' l l' : before e e' -> nodes_before (inr e :: l) (inr e' :: l')
| nb_same x l l' : nodes_before l l' -> nodes_before (x :: l) (x :: l').
