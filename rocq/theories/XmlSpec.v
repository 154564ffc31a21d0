(** Specifications for the properties of QTIMigration/lib/xmlutils.py and fixwinchars.py:
    XML 1.0 productions and percent escapes, written without the model's functions (only
    the data types [tag] and [token] are shared). *)
From Verif Require Import Py Dec XmlUtils.

(** A string of Unicode code points *)
Definition is_text (s : str) : Prop := Forall (fun c => 0 <= c <= 0x10FFFF) s.
Definition octets (s : str) : Prop := Forall (fun c => 0 <= c <= 255) s.

(** XML 1.0 section 4.6: the predefined entities *)
Definition predefined : list (str * Z) :=
  [(lit "amp", 38); (lit "lt", 60); (lit "gt", 62); (lit "quot", 34); (lit "apos", 39)].

(** [reads s t]: the XML character data [s] stands for the text [t] (sections 2.4, 4.1). *)
Inductive reads : str -> str -> Prop :=
| rd_nil : reads [] []
| rd_char c s t : c <> 38 -> c <> 60 -> reads s t -> reads (c :: s) (c :: t)
| rd_entity name v s t : In (name, v) predefined -> reads s t ->
    reads (38 :: name ++ 59 :: s) (v :: t)
| rd_decimal ds s t : ds <> [] -> Forall is_dec ds -> reads s t ->
    reads (38 :: 35 :: ds ++ 59 :: s) (dval ds :: t).

(** XML 1.0 production [2] Char and [15] Comment *)
Definition xml_Char (c : Z) : Prop :=
  c = 9 \/ c = 10 \/ c = 13 \/ 32 <= c <= 0xD7FF \/ 0xE000 <= c <= 0xFFFD \/ 0x10000 <= c <= 0x10FFFF.
Inductive comment_body : str -> Prop :=
| cb_nil : comment_body []
| cb_char c s : xml_Char c -> c <> 45 -> comment_body s -> comment_body (c :: s)
| cb_hyphen c s : xml_Char c -> c <> 45 -> comment_body s -> comment_body (45 :: c :: s).
Definition well_formed_comment (t : str) : Prop :=
  exists b, comment_body b /\ t = lit "<!--" ++ b ++ lit "-->".

(** RFC 2396: a reference with a scheme *)
Definition letter (c : Z) : Prop := 65 <= c <= 90 \/ 97 <= c <= 122.
Definition has_scheme (u : str) : Prop :=
  exists a s rest, u = a :: s ++ 58 :: rest /\ letter a /\
    Forall (fun c => letter c \/ is_dec c \/ c = 43 \/ c = 45 \/ c = 46) s.

(** Percent escapes: [pct_reads s t] when every '%' of [s] begins an escape and [t] is the
    decoded octet string. *)
Definition hex_of (c v : Z) : Prop :=
  (48 <= c <= 57 /\ v = c - 48) \/ (65 <= c <= 70 /\ v = c - 55) \/ (97 <= c <= 102 /\ v = c - 87).
Inductive pct_reads : str -> str -> Prop :=
| pr_nil : pct_reads [] []
| pr_char c s t : c <> 37 -> pct_reads s t -> pct_reads (c :: s) (c :: t)
| pr_escape a b x y s t : hex_of a x -> hex_of b y -> pct_reads s t ->
    pct_reads (37 :: a :: b :: s) (x * 16 + y :: t).

(** RFC 2396 pchar without '%' and the characters that delimit a segment *)
Definition segment_char (c : Z) : Prop :=
  letter c \/ is_dec c \/ In c (lit "-_.!~*'():@&=+$,").

(** *** Markup *)
Definition space (c : Z) : Prop := c = 32 \/ c = 9 \/ c = 13 \/ c = 10.
Definition name_start (c : Z) : Prop := letter c \/ c = 95 \/ c > 128.
Definition name_char (c : Z) : Prop := letter c \/ is_dec c \/ In c (lit "_-.:") \/ c > 128.
Definition is_name (n : str) : Prop :=
  match n with [] => False | a :: s => name_start a /\ Forall name_char s end.

(** XML 1.0 productions [40]-[44]: attributes, tags and character data.  [attributes l m]:
    [m] is markup for the attributes [l]. *)
Inductive attributes : list (str * str) -> str -> Prop :=
| at_nil sp : Forall space sp -> attributes [] sp
| at_cons k v l sp sp1 sp2 q w m :
    Forall space sp -> sp <> [] -> is_name k -> Forall space sp1 -> Forall space sp2 ->
    q = 34 \/ q = 39 -> reads w v -> is_text v -> ~ In q w -> attributes l m ->
    attributes ((k, v) :: l) (sp ++ k ++ sp1 ++ 61 :: sp2 ++ q :: w ++ q :: m).
Inductive tag_markup : tag -> str -> Prop :=
| tm_start n a m : is_name n -> NoDup (map fst a) -> attributes a m ->
    tag_markup (mkTag n STag a) (60 :: n ++ m ++ [62])
| tm_empty n a m : is_name n -> NoDup (map fst a) -> attributes a m ->
    tag_markup (mkTag n EmptyElemTag a) (60 :: n ++ m ++ [47; 62])
| tm_end n sp : is_name n -> Forall space sp ->
    tag_markup (mkTag n ETag []) (60 :: 47 :: n ++ sp ++ [62]).
(** Alternating text and tags *)
Inductive content : list token -> str -> Prop :=
| ct_nil : content [] []
| ct_tag t l m w : tag_markup t m -> content l w -> content (Tag t :: l) (m ++ w)
| ct_text s l m w : s <> [] -> is_text s -> reads m s ->
    match l with Text _ :: _ => False | _ => True end -> content l w ->
    content (Text s :: l) (m ++ w).

(** The entities of the fragment tokenizer: the predefined ones and the no-break space, in
    any case; any other name reads as a question mark. *)
Definition ascii_lower (c : Z) : Z := if (65 <=? c) && (c <=? 90) then c + 32 else c.
Definition entity_reads (n : str) (v : Z) : Prop :=
  In (map ascii_lower n, v) (predefined ++ [(lit "nbsp", 160)]) \/
  (~ In (map ascii_lower n) (map fst (predefined ++ [(lit "nbsp", 160)])) /\ v = 63).

(** The value of an attribute that is given more than once is the last one. *)
Definition last_value (l : list (str * str)) (k v : str) : Prop :=
  exists l1 l2, l = l1 ++ (k, v) :: l2 /\ ~ In k (map fst l2).
