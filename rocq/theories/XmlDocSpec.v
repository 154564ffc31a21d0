(** XML 1.0 (fifth edition) documents without a document type declaration: the productions of the
    specification and the tree of elements a document stands for.  Nothing here uses the functions of the
    model; the type [tree] is shared. *)
From Verif Require Import Py.
From Verif Require Import XmlDoc.
From Verif Require XmlCharsSpec.
Import XmlCharsSpec.
Open Scope Z_scope.
Open Scope list_scope.

(** ** Line ends (section 2.11) *)
(** [line_ends s t]: [t] is [s] with CR LF, and CR alone, replaced by LF. *)
Inductive line_ends : str -> str -> Prop :=
| le_nil : line_ends [] []
| le_char c s t : c <> 13 -> line_ends s t -> line_ends (c :: s) (c :: t)
| le_crlf s t : line_ends s t -> line_ends (13 :: 10 :: s) (10 :: t)
| le_cr s t : (forall s', s <> 10 :: s') -> line_ends s t -> line_ends (13 :: s) (10 :: t).

(** The text of a document: a byte order mark at the start is not part of it. *)
Definition opened (s u : str) : Prop := exists t, line_ends s t /\
  (t = 0xFEFF :: u \/ t = u /\ forall y, t <> 0xFEFF :: y).

(** ** The dialects compared: which names, comments and processing instructions there are *)
Record dialect := {
  d_name : str -> Prop;       (* [5] Name *)
  d_comment : str -> Prop;    (* [15] Comment, with its delimiters *)
  d_pi : str -> Prop }.       (* [16] PI, with its delimiters *)

Definition spaces (s : str) : Prop := Forall xml_space s.
Definition spaces1 (s : str) : Prop := s <> [] /\ spaces s.

(** [25] Eq *)
Definition eq_sign (m : str) : Prop := exists a b, spaces a /\ spaces b /\ m = a ++ lit "=" ++ b.

Section Grammar.
Variable D : dialect.

(** [66], [68]: a reference and the character it stands for ("Legal Character") *)
Definition legal_reference (r : str) (c : Z) : Prop := reference r c /\ char c.

(** [10] AttValue, without the quotes, and the value after normalisation (section 3.3.3) *)
Inductive att_value (q : Z) : str -> str -> Prop :=
| av_nil : att_value q [] []
| av_char c m v : c <> 38 -> c <> 60 -> c <> q -> ~ xml_space c -> att_value q m v -> att_value q (c :: m) (c :: v)
| av_space c m v : xml_space c -> att_value q m v -> att_value q (c :: m) (32 :: v)
| av_ref r c m v : legal_reference r c -> att_value q m v -> att_value q (r ++ m) (c :: v).

(** (S Attribute)* S? *)
Inductive attributes : list (str * str) -> str -> Prop :=
| as_nil sp : spaces sp -> attributes [] sp
| as_cons sp k e q w v l m : spaces1 sp -> d_name D k -> eq_sign e -> q = 34 \/ q = 39 -> att_value q w v ->
    attributes l m -> attributes ((k, v) :: l) (sp ++ k ++ e ++ [q] ++ w ++ [q] ++ m).

(** A piece of text followed by other nodes: adjoining text is one node. *)
Definition text_then (t : str) (l : list node) : list node :=
  match t with
  | [] => l
  | _ => match l with inl u :: l' => inl (t ++ u) :: l' | _ => inl t :: l end
  end.

(** [39] element, [40] STag, [42] ETag, [43] content, [44] EmptyElemTag, [14] CharData, [18] CDSect *)
Inductive element : str -> tree -> Prop :=
| el_empty n a m : d_name D n -> attributes a m -> NoDup (map fst a) ->
    element (lit "<" ++ n ++ m ++ lit "/>") (Elem n a [])
| el_full n a m w l sp : d_name D n -> attributes a m -> NoDup (map fst a) -> content w l -> spaces sp ->
    element (lit "<" ++ n ++ m ++ lit ">" ++ w ++ lit "</" ++ n ++ sp ++ lit ">") (Elem n a l)
with content : str -> list node -> Prop :=
| co_nil : content [] []
| co_char c m l : c <> 60 -> c <> 38 -> (forall x, c :: m <> lit "]]>" ++ x) -> content m l ->
    content (c :: m) (text_then [c] l)
| co_ref r c m l : legal_reference r c -> content m l -> content (r ++ m) (text_then [c] l)
| co_cdata d m l : (forall x y, d <> x ++ lit "]]>" ++ y) -> content m l ->
    content (lit "<![CDATA[" ++ d ++ lit "]]>" ++ m) (text_then d l)
| co_comment w m l : d_comment D w -> content m l -> content (w ++ m) l
| co_pi w m l : d_pi D w -> content m l -> content (w ++ m) l
| co_element w e m l : element w e -> content m l -> content (w ++ m) (inr e :: l).

(** [27] Misc* *)
Inductive misc : str -> Prop :=
| mi_nil : misc []
| mi_space c m : xml_space c -> misc m -> misc (c :: m)
| mi_comment w m : d_comment D w -> misc m -> misc (w ++ m)
| mi_pi w m : d_pi D w -> misc m -> misc (w ++ m).
End Grammar.

(** ** The XML declaration ([23]-[26], [32], [80], [81]) *)
Definition quoted (p : str -> Prop) (m : str) : Prop :=
  exists q x, (q = 34 \/ q = 39) /\ p x /\ m = [q] ++ x ++ [q].
Definition version_num (x : str) : Prop := exists ds, ds <> [] /\ Forall dec_digit ds /\ x = lit "1." ++ ds.
Definition latin (c : Z) : Prop := 65 <= c <= 90 \/ 97 <= c <= 122.
Definition enc_name (x : str) : Prop := exists c s, x = c :: s /\ latin c /\
  Forall (fun c => latin c \/ dec_digit c \/ c = 46 \/ c = 95 \/ c = 45) s.
Definition pseudo (name : str) (p : str -> Prop) (m : str) : Prop :=
  exists sp e v, spaces1 sp /\ eq_sign e /\ quoted p v /\ m = sp ++ name ++ e ++ v.
Definition optional (p : str -> Prop) (m : str) : Prop := m = [] \/ p m.
Definition xml_decl (m : str) : Prop := exists v e s sp,
  pseudo (lit "version") version_num v /\ optional (pseudo (lit "encoding") enc_name) e /\
  optional (pseudo (lit "standalone") (fun x => x = lit "yes" \/ x = lit "no")) s /\ spaces sp /\
  m = lit "<?xml" ++ v ++ e ++ s ++ sp ++ lit "?>".

(** [1] document, without [28] doctypedecl; [start] holds of a text without XML declaration, and [after] is
    what may follow the document. *)
Definition document (D : dialect) (start after : str -> Prop) (s : str) (t : tree) : Prop :=
  exists x m1 w m2 z, s = x ++ m1 ++ w ++ m2 ++ z /\ (x = [] /\ start s \/ xml_decl x) /\ misc D m1 /\
    element D w t /\ misc D m2 /\ after z.

(** ** XML 1.0 *)
(** [15]: no "--" and no "-" at the end *)
Inductive comment_text : str -> Prop :=
| ct_nil : comment_text []
| ct_char c s : c <> 45 -> comment_text s -> comment_text (c :: s)
| ct_hyphen c s : c <> 45 -> comment_text s -> comment_text (45 :: c :: s).
Definition xml_comment (m : str) : Prop := exists d, comment_text d /\ m = lit "<!--" ++ d ++ lit "-->".

(** [17] PITarget *)
Definition pi_target (n : str) : Prop :=
  ~ exists x m l, n = [x; m; l] /\ In x (lit "xX") /\ In m (lit "mM") /\ In l (lit "lL").
(** [16] PI with the data allowed by [p] *)
Definition instruction (nm : str -> Prop) (p : str -> Prop) (m : str) : Prop := exists n, nm n /\ pi_target n /\
  (m = lit "<?" ++ n ++ lit "?>" \/
   exists sp d, spaces1 sp /\ p d /\ (forall c d', d = c :: d' -> ~ xml_space c) /\
     m = lit "<?" ++ n ++ sp ++ d ++ lit "?>").
Definition no_end (d : str) : Prop := forall x y, d <> x ++ lit "?>" ++ y.

Definition xml10 : dialect := {|
  d_name := name;
  d_comment := xml_comment;
  d_pi := instruction name no_end |}.

(** A well-formed document without document type declaration: every character is a Char. *)
Definition well_formed (s : str) (t : tree) : Prop :=
  Forall char s /\ document xml10 (fun _ => True) (fun z => z = []) s t.

(** ** What pyslet reads *)
(** Names of the basic plane *)
Definition bmp_name (n : str) : Prop := name n /\ Forall bmp n.
(** White space may come before the ">" of a comment. *)
Definition open_comment (m : str) : Prop := exists d sp, comment_text d /\ spaces sp /\
  m = lit "<!--" ++ d ++ lit "--" ++ sp ++ lit ">".
(** In the data of an instruction, a question mark goes with the character after it: it ends with "?>" where "?"
    is not itself after such a question mark. *)
Inductive pairs : str -> Prop :=
| pr_nil : pairs []
| pr_char c s : c <> 63 -> pairs s -> pairs (c :: s)
| pr_pair c s : c <> 62 -> pairs s -> pairs (63 :: c :: s).
Definition pyslet : dialect := {|
  d_name := bmp_name;
  d_comment := open_comment;
  d_pi := instruction bmp_name pairs |}.
(** A comment or an instruction that is not finished may end the text. *)
Definition unfinished (m : str) : Prop :=
  m = [] \/
  (exists d, comment_text d /\ (m = lit "<!--" ++ d \/ m = lit "<!--" ++ d ++ lit "-" \/
     exists sp, spaces sp /\ m = lit "<!--" ++ d ++ lit "--" ++ sp)) \/
  (exists n sp d, bmp_name n /\ pi_target n /\ spaces1 sp /\ pairs d /\ m = lit "<?" ++ n ++ sp ++ d).

(** The documents read: if there is no XML declaration the text does not begin with "<?xml". *)
Definition not_declared (s : str) : Prop := forall y, s <> lit "<?xml" ++ y.
Definition readable (s : str) (t : tree) : Prop := document pyslet not_declared unfinished s t.

(** The documents that are both: their names are in the basic plane and the data of their instructions has no
    two question marks side by side (nor one before the "?>"). *)
Definition single_marks (d : str) : Prop := forall x y, d ++ [63] <> x ++ [63; 63] ++ y.
Definition plain : dialect := {|
  d_name := bmp_name;
  d_comment := xml_comment;
  d_pi := instruction bmp_name (fun d => no_end d /\ single_marks d) |}.


(** No "--" is followed by white space and a ">", and no question mark by another. *)
Definition clean (s : str) : Prop :=
  (forall x sp y, s = x ++ lit "--" ++ sp ++ lit ">" ++ y -> spaces sp -> sp = []) /\ (forall x y, s <> x ++ lit "??" ++ y).

(** ** The reader *)
(** The text still to be read: what was pushed back, then the rest of the entity. *)
Definition rd_view (r : reader) : str :=
  let '(buff, ent) := r in match buff with [] => ent | _ => buff ++ tl ent end.

(** ** Errors *)
Definition has (m s : str) : Prop := exists x y, s = x ++ m ++ y.
