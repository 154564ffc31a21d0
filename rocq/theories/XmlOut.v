(** Model of writing and comparing XML elements: pyslet/pyslet/xml20081126/structures.py 456-463 (Document),
    1397-1470 (GetCanonicalChildren), 1870-1935 (SortNames, __cmp__), 2080-2195 (GetSpace, PrettyPrint,
    WriteXMLAttributes, GenerateXML).

    Simplifications.
    - The elements are of class Element: XMLCONTENT is ElementType.Mixed, there is no SGMLCDATA, no mapping of
      attributes and no id.  So PrettyPrint is False, the children are written inline, and [indent] and [tab] only
      decide whether a line end comes before the root.
    - An element knows its parent; here the functions are given whether 'preserve' is in force at the parent.
    - The strings that a generator yields are joined. *)
From Verif Require Import Py XmlChars XmlDoc.
Open Scope Z_scope.
Open Scope list_scope.

(** cmp of strings *)
Fixpoint cmp_str (a b : str) : comparison :=
  match a, b with
  | [], [] => Eq
  | [], _ :: _ => Lt
  | _ :: _, [] => Gt
  | x :: a', y :: b' => match x ?= y with Eq => cmp_str a' b' | c => c end
  end.

(** SortNames, structures.py 1870-1878, of the keys of the dictionary of attributes *)
Fixpoint insert_attr (x : str * str) (l : list (str * str)) : list (str * str) :=
  match l with
  | [] => [x]
  | y :: l' => match cmp_str (fst x) (fst y) with Gt => y :: insert_attr x l' | _ => x :: l end
  end.
Definition SortNames (l : list (str * str)) : list (str * str) := fold_right insert_attr [] l.

(** xml_space, structures.py 16 *)
Definition xml_space_attr : str := lit "xml:space".
(** The search for xml:space in an element and its parents, structures.py 1411-1424; [outer] is what its parent
    found. *)
Definition preserves (outer : bool) (attrs : list (str * str)) : bool :=
  match lookup xml_space_attr attrs with
  | Some v => str_eqb v (lit "preserve")
  | None => outer
  end.

(** ** GetCanonicalChildren, structures.py 1397-1470 *)
Section Canonical.
Context {E : Type}.
(** The loop, structures.py 1443-1470 *)
Fixpoint canonical_loop (data : list str) (sMode : bool) (children : list (str + E)) : list (str + E) :=
  match children with
  | [] =>
      match data with
      | [] => []
      | _ =>
          let dataChild := CollapseSpace (concat data) sMode in
          if str_eqb dataChild [32] then if sMode then [inl []; inl dataChild] else []
          else if last dataChild 0 =? 32 then [inl (removelast dataChild)]
          else [inl dataChild]
      end
  | inl s :: l => canonical_loop (data ++ [s]) sMode l
  | inr e :: l =>
      match data with
      | [] => []
      | _ =>
          let dataChild := CollapseSpace (concat data) sMode in
          if negb sMode || negb (str_eqb dataChild [32]) then [inl dataChild] else []
      end ++ inr e :: canonical_loop [] false l
  end.
Definition GetCanonicalChildren (preserve : bool) (children : list (str + E)) : list (str + E) :=
  match children with
  | [] => []
  | firstChild :: l =>
      if preserve then children
      else match l, firstChild with
           | [], inl s => [inl (CollapseSpace s true)]
           | [], inr e => [inr e]
           | _, inl s => canonical_loop [s] true l
           | _, inr e => inr e :: canonical_loop [] false l
           end
  end.
End Canonical.

(** ** GenerateXML *)
Section Writing.
Variable escapeFunction : str -> bool -> str.

(** WriteXMLAttributes, structures.py 2126-2137, and the join in GenerateXML *)
Definition WriteXMLAttributes (attrs : list (str * str)) : str :=
  flat_map (fun '(a, v) => lit " " ++ a ++ lit "=" ++ escapeFunction v true) (SortNames attrs).

(** GenerateXML, structures.py 2139-2191 *)
Fixpoint GenerateXML (outer : bool) (ws : str) (t : tree) : str :=
  match t with
  | Elem n attrs children =>
      let preserve := preserves outer attrs in
      let attributes := WriteXMLAttributes attrs in
      match GetCanonicalChildren preserve
              (map (fun c => match c with inl s => inl s | inr e => inr (GenerateXML preserve [] e) end) children) with
      | [] => ws ++ lit "<" ++ n ++ attributes ++ lit "/>"
      | l =>
          ws ++ lit "<" ++ n ++ attributes ++ lit ">" ++
          flat_map (fun c => match c with inl s => escapeFunction s false | inr x => x end) l ++
          lit "</" ++ n ++ lit ">"
      end
  end.

(** Document.GenerateXML, structures.py 456-463; [tab] is whether there is one *)
Definition GenerateDocument (tab : bool) (root : tree) : str :=
  if tab then lit "<?xml version=""1.0"" encoding=""UTF-8""?>" ++ GenerateXML false [10] root
  else lit "<?xml version=""1.0"" encoding=""UTF-8""?>" ++ [10] ++ GenerateXML false [] root.
End Writing.

(** ** __cmp__, structures.py 1880-1935 *)
Fixpoint cmp_attrs (a b : list (str * str)) : comparison :=
  match a, b with
  | [], [] => Eq
  | _ :: _, [] => Gt
  | [], _ :: _ => Lt
  | (x, v) :: a', (y, w) :: b' =>
      match cmp_str x y with
      | Eq => match cmp_str v w with Eq => cmp_attrs a' b' | c => c end
      | c => c
      end
  end.
(** An element of the first list comes as its comparison with another. *)
Fixpoint cmp_children (a : list (str + (tree -> comparison))) (b : list node) : comparison :=
  match a, b with
  | [], [] => Eq
  | _ :: _, [] => Gt
  | [], _ :: _ => Lt
  | x :: a', y :: b' =>
      match match x, y with
            | inr f, inr e => f e
            | inr _, inl _ => Lt
            | inl _, inr _ => Gt
            | inl s, inl u => cmp_str s u
            end with
      | Eq => cmp_children a' b'
      | c => c
      end
  end.
Fixpoint Compare (outer : bool) (t : tree) (outer' : bool) (t' : tree) : comparison :=
  match t, t' with
  | Elem n attrs children, Elem n' attrs' children' =>
      match cmp_str n n' with
      | Eq =>
          match cmp_attrs (SortNames attrs) (SortNames attrs') with
          | Eq =>
              let p := preserves outer attrs in
              let p' := preserves outer' attrs' in
              cmp_children
                (GetCanonicalChildren p
                   (map (fun c => match c with inl s => inl s | inr e => inr (fun e' => Compare p e p' e') end) children))
                (GetCanonicalChildren p' children')
          | c => c
          end
      | c => c
      end
  end.
