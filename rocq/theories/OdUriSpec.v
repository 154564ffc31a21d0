(** Specification of the URIs of OData services: which paths $expand and $select name, which
    resource paths are allowed, which options go with them and how an entity is addressed. *)
From Verif Require Import Py Iso Dec Shapes XmlChars Xsd Imscp Uri OdExpr OdExprSpec OdUri.
Open Scope Z_scope.
Open Scope list_scope.

(** ** $expand and $select *)
(** A path of names that a dictionary holds *)
Inductive holds : list (str * sel) -> list str -> Prop :=
| Holds1 : forall d n s, In (n, s) d -> holds d [n]
| HoldsSub : forall d n l p, In (n, Branch l) d -> holds l p -> holds d (n :: p).
Definition begins (p q : list str) : Prop := p <> [] /\ exists r, q = p ++ r.
(** The dictionary holds the given paths and their beginnings, and nothing else *)
Definition holds_just (d : list (str * sel)) (ps : list (list str)) : Prop :=
  forall p, holds d p <-> exists q, In q ps /\ begins p q.
(** No name occurs twice in a dictionary or in one that it contains *)
Inductive tidy : list (str * sel) -> Prop :=
| Tidy : forall d, NoDup (map fst d) -> (forall n l, In (n, Branch l) d -> tidy l) -> tidy d.

Section Names.
Variable start id : Z -> bool.
(** $expand: names separated by '/', paths by ',' *)
Inductive path_text : list str -> str -> Prop :=
| PT1 : forall n, identifier start id n -> path_text [n] n
| PTn : forall n p t, identifier start id n -> path_text p t -> path_text (n :: p) (n ++ 47 :: t).
Inductive expand_text : list (list str) -> str -> Prop :=
| ET1 : forall p t, path_text p t -> expand_text [p] t
| ETn : forall p t ps u, path_text p t -> expand_text ps u -> expand_text (p :: ps) (t ++ 44 :: u).
(** $select: the last name may be '*', and white space may stand before names and after paths *)
Inductive item_text : list str -> str -> Prop :=
| IT1 : forall n w, identifier start id n -> spaces w -> item_text [n] (w ++ n)
| ITs : forall w, spaces w -> item_text [[42]] (w ++ [42])
| ITn : forall n p w t, identifier start id n -> spaces w -> item_text p t -> item_text (n :: p) (w ++ n ++ 47 :: t).
Inductive select_text : list (list str) -> str -> Prop :=
| ST1 : forall p t w, item_text p t -> spaces w -> select_text [p] (t ++ w)
| STn : forall p t w ps u, item_text p t -> spaces w -> select_text ps u -> select_text (p :: ps) (t ++ w ++ 44 :: u).
End Names.

(** ** Resource paths *)
(** The text of a path of segments *)
Definition slashes (l : list str) : str := flat_map (fun s => 47 :: s) l.
(** Code points *)
Definition code_points (s : str) : Prop := Forall (fun c => 0 <= c < 0x110000) s.
Section Paths.
Context {X : Type}.
Variable number : edm_type -> numeric -> result X.
Variable quoted : edm_type -> str -> result (X * str).
Variable show : edm_type -> X -> str.
Variable start id : Z -> bool.
Notation value := (value X).
Notation segment := (str * option (list (str * value)))%type.
Notation SplitSegment := (SplitSegment X number quoted start id).

(** A segment that names something *)
Definition names (s : str) (x : segment) : Prop := is_dollar s = false /\ SplitSegment s = Ok x.
(** The word of a path option, in any case and with white space around it *)
Definition option_word (o : pathopt) (s : str) : Prop :=
  exists w1 k w2, s = 36 :: w1 ++ k ++ w2 /\ forallb is_ws w1 = true /\ forallb is_ws w2 = true /\ OdExpr.lower k = pathopt_name o.
(** The segments of a path, and what they mean *)
Inductive path_form : list str -> path X -> Prop :=
| PFplain : forall l nav, Forall2 names l nav -> path_form l (mkPath X nav None None)
| PFlast : forall l nav o w, Forall2 names l nav -> option_word o w -> o <> PLinks ->
    path_form (l ++ [w]) (mkPath X nav (Some o) None)
| PFlinks : forall l nav w s x, Forall2 names l nav -> option_word PLinks w -> names s x ->
    path_form (l ++ [w; s]) (mkPath X (nav ++ [x]) (Some PLinks) (Some (fst x))).

(** ** System query options *)
(** What OData allows with a path option *)
Definition allowed (p : path X) (o : sysopt) : Prop :=
  match p_option X p with
  | None | Some PValue => True
  | Some PMetadata | Some PBatch => False
  | Some PLinks => In o [SFormat; SSkip; STop; SSkiptoken; SInlinecount]
  | Some PCount =>
      match rev (p_nav X p) with
      | (_, Some (_ :: _)) :: _ => In o [SExpand; SFilter]        (* of an entity *)
      | _ => In o [SExpand; SFilter; SOrderby; SSkip; STop]
      end
  end.

(** ** Keys *)
(** Characters that need no escape in a URI *)
Definition simple_char (c : Z) : Prop := IsUnreserved c = true.
(** Characters that can be in the path of a URI and do not separate anything in a key *)
Definition key_char (c : Z) : Prop := (IsUnreserved c = true \/ IsReserved c = true) /\ ~ In c (lit "/?,=").
(** The text of a literal for a value *)
Notation literal_ok := (literal_ok number quoted show).
(** Names of entity sets, without the brackets of keys *)
Definition set_name (n : str) : Prop := n <> [] /\ Forall simple_char n /\ ~ In 40 n.
(** A key whose names and literals have such characters; the name of a single key is not written *)
Definition key_ok (p : str * value) : Prop :=
  fst p <> [] /\ Forall key_char (fst p) /\ literal_ok (snd p) /\ Forall key_char (literal_text X show (snd p)).
Definition keys_ok (d : list (str * value)) : Prop :=
  NoDup (map fst d) /\
  match d with [(_, v)] => literal_ok v /\ Forall key_char (literal_text X show v) | _ => Forall key_ok d end.
(** The key as it is read: a single key has no name *)
Definition as_read (d : list (str * value)) : list (str * value) := match d with [(_, v)] => [([], v)] | _ => d end.
(** The path of the service *)
Definition service_path (p : str) : Prop :=
  p = [] \/ exists c t, p = 47 :: c :: t /\ c <> 47 /\ Forall (fun c => (IsUnreserved c = true \/ IsReserved c = true) /\ c <> 63) (c :: t).
End Paths.
