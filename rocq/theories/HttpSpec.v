(** Specification for HTTP: what tokens, quoted strings and the values of headers are. *)
From Coq Require Import Permutation.
From Verif Require Import Py Iso IsoSpec Dec XmlUtils Imscp HttpCore HttpParams HttpHeaders.
Open Scope Z_scope.

(** *** Lexical grammar *)

(** Characters of ISO-8859-1 *)
Definition octet (c : Z) : Prop := 0 <= c < 256.
Definition octets (s : str) : Prop := Forall octet s.
Definition separator (c : Z) : Prop :=
  In c [40; 41; 60; 62; 64; 44; 59; 58; 92; 34; 47; 91; 93; 63; 61; 123; 125; 32; 9].
(** Characters of tokens: no control characters and no separators *)
Definition token_char (c : Z) : Prop := 32 <= c /\ c <> 127 /\ ~ separator c.
Definition is_token (s : str) : Prop := s <> [] /\ Forall token_char s.

(** [quoted body s]: body, between quotes, stands for s: a backslash stands before the
    character it quotes; quotes and backslashes are always quoted. *)
Inductive quoted : str -> str -> Prop :=
| quoted_nil : quoted [] []
| quoted_plain c b s : c <> 92 -> c <> 34 -> quoted b s -> quoted (c :: b) (c :: s)
| quoted_pair c b s : quoted b s -> quoted (92 :: c :: b) (c :: s).

(** *** Lexicographic order *)
Section Lex.
Context {A : Type}.
Variable lt : A -> A -> Prop.
Inductive lex_lt : list A -> list A -> Prop :=
| lex_prefix x l : lex_lt [] (x :: l)
| lex_here x y l l' : lt x y -> lex_lt (x :: l) (y :: l')
| lex_later x l l' : lex_lt l l' -> lex_lt (x :: l) (x :: l').
End Lex.

(** A comparison that is a total preorder *)
Definition preorder {A} (cmp : A -> A -> comparison) : Prop :=
  (forall a, cmp a a = Eq) /\
  (forall a b, cmp b a = CompOpp (cmp a b)) /\
  (forall a b c, cmp a b <> Gt -> cmp b c <> Gt -> cmp a c <> Gt).

(** *** Parameters of media types and transfer encodings *)

(** A name, kept as written and in lower case, and a value that is not empty *)
Definition good_param (e : str * (str * str)) : Prop :=
  let '(k, (n, v)) := e in is_token n /\ k = lower n /\ octets v /\ v <> [].
Definition good_params (d : params) : Prop := Forall good_param d /\ NoDup (map fst d).
(** Names in strictly increasing order *)
Fixpoint increasing (l : list str) : Prop :=
  match l with
  | a :: ((b :: _) as l') => lex_lt Z.lt a b /\ increasing l'
  | _ => True
  end.

(** *** Versions of products *)
Definition digit (c : Z) : bool := (48 <=? c) && (c <=? 57).
(** The maximal runs of digits and of other characters *)
Fixpoint runs (s : str) : list str :=
  match s with
  | [] => []
  | c :: s' =>
      match runs s' with
      | (d :: r) :: rs => if Bool.eqb (digit c) (digit d) then (c :: d :: r) :: rs else [c] :: (d :: r) :: rs
      | _ => [[c]]
      end
  end.
(** The value of a run: digits count as a number *)
Definition decimal (s : str) : Z := fold_left (fun v c => v * 10 + (c - 48)) s 0.
Definition part (r : str) : vpart :=
  match r with c :: _ => if digit c then VNum (decimal r) else VStr r | [] => VStr [] end.
(** A component that does not start with a number gets the number -1. *)
Definition component (s : str) : list vpart :=
  match s with
  | [] => []
  | c :: _ => (if digit c then [] else [VNum (-1)]) ++ map part (runs s)
  end.
(** The components between dots; nothing after a final dot *)
Definition components (s : str) : list str :=
  let l := Imscp.split_on 46 s in
  match last l [] with [] => removelast l | _ => l end.

(** Numbers, compared one by one; a list comes before its continuations. *)
Definition numbers_lt : list Z -> list Z -> Prop := lex_lt Z.lt.

(** *** Dates *)
Definition short_days := map lit ["Mon"; "Tue"; "Wed"; "Thu"; "Fri"; "Sat"; "Sun"]%string.
Definition long_days :=
  map lit ["Monday"; "Tuesday"; "Wednesday"; "Thursday"; "Friday"; "Saturday"; "Sunday"]%string.
Definition month_names :=
  map lit ["Jan"; "Feb"; "Mar"; "Apr"; "May"; "Jun"; "Jul"; "Aug"; "Sep"; "Oct"; "Nov"; "Dec"]%string.
Definition name (l : list str) (i : Z) : str := nth (Z.to_nat (i - 1)) l [].
Definition two (n : Z) : str := [48 + n / 10; 48 + n mod 10].
Definition four (n : Z) : str := [48 + n / 1000; 48 + n / 100 mod 10; 48 + n / 10 mod 10; 48 + n mod 10].
Definition clock (h m s : Z) : str := two h ++ lit ":" ++ two m ++ lit ":" ++ two s.
(** The three forms of dates, for the day of the week wd *)
Definition rfc1123_date (wd y m d h mi s : Z) : str :=
  name short_days wd ++ lit ", " ++ two d ++ lit " " ++ name month_names m ++ lit " " ++ four y
  ++ lit " " ++ clock h mi s ++ lit " GMT".
Definition rfc850_date (wd y m d h mi s : Z) : str :=
  name long_days wd ++ lit ", " ++ two d ++ lit "-" ++ name month_names m ++ lit "-" ++ two (y mod 100)
  ++ lit " " ++ clock h mi s ++ lit " GMT".
Definition asctime_date (wd y m d h mi s : Z) : str :=
  name short_days wd ++ lit " " ++ name month_names m ++ lit " "
  ++ (if d <? 10 then [32; 48 + d] else two d) ++ lit " " ++ clock h mi s ++ lit " " ++ four y.

(** *** Negotiation *)

(** A range of media types and the types it covers.  Of the parameters the key, in lower
    case, and the value count. *)
Definition covers (r m : media) : Prop :=
  m_type r = lit "*" \/
  lower (m_type r) = lower (m_type m) /\
  (m_sub r = lit "*" \/
   lower (m_sub r) = lower (m_sub m) /\
   forall k n v, In (k, (n, v)) (m_params r) -> exists n', In (k, (n', v)) (m_params m)).
(** The ranges the grammar allows: no type other than * for the type * *)
Definition wf_range (r : media) : Prop := m_type r = lit "*" -> m_sub r = lit "*".
(** 0 for a type with a subtype, 1 for all subtypes of a type, 2 for all types *)
Definition breadth (r : media) : nat :=
  if str_eqb (m_type r) (lit "*") then 2 else if str_eqb (m_sub r) (lit "*") then 1 else 0.
Definition more_specific (r s : media) : Prop :=
  (breadth r < breadth s)%nat \/
  breadth r = breadth s /\ (length (m_params s) < length (m_params r))%nat.
Definition same_params (a b : params) : Prop := forall e, In e a <-> In e b.
(** The quality of a media type: that of the most specific range which covers it *)
Definition media_quality (l : list accept) (m : media) (q : Z) : Prop :=
  (q = 0 /\ forall a, In a l -> ~ covers (a_range a) m) \/
  exists a, In a l /\ covers (a_range a) m /\ q = a_q a /\
    forall b, In b l -> covers (a_range b) m ->
      ~ more_specific (a_range b) (a_range a) /\
      (breadth (a_range b) = breadth (a_range a) -> same_params (m_params (a_range b)) (m_params (a_range a)) -> a_q b <= q).
(** The first of the candidates with the greatest quality, if that is positive *)
Definition chosen {C} (Q : C -> Z) (cs : list C) (c : C) : Prop :=
  exists a b, cs = a ++ c :: b /\ 0 < Q c /\ Forall (fun x => Q x < Q c) a /\ Forall (fun x => Q x <= Q c) b.
Definition negotiated {C} (Q : C -> Z) (cs : list C) (r : option C) : Prop :=
  match r with Some c => chosen Q cs c | None => Forall (fun x => Q x <= 0) cs end.

(** Tokens are compared without regard to case. *)
Definition names (a : atoken) (t : str) : Prop := lower (at_token a) = lower t.
Definition greatest (q : Z) (l : list atoken) (p : atoken -> Prop) : Prop :=
  (exists a, In a l /\ p a /\ at_q a = q) /\ forall a, In a l -> p a -> at_q a <= q.
(** That of the items with the name; or of the item *; or [unlisted] *)
Definition token_quality (l : list atoken) (unlisted : str -> Z) (t : str) (q : Z) : Prop :=
  greatest q l (fun a => names a t) \/
  (forall a, In a l -> ~ names a t) /\
  (greatest q l (fun a => at_token a = lit "*") \/
   (forall a, In a l -> at_token a <> lit "*") /\ q = unlisted t).

(** Language ranges: the parts of the item, none for *; a range covers the tags which
    start with it. *)
Definition range_parts (a : atoken) : list str :=
  if str_eqb (at_token a) (lit "*") then [] else Imscp.split_on 45 (lower (at_token a)).
Definition covers_tag (a : atoken) (t : lang) : Prop := exists rest, l_tag t = range_parts a ++ rest.
(** That of the longest range which covers the tag; of several the first *)
Definition language_quality (l : list atoken) (t : lang) (q : Z) : Prop :=
  (q = 0 /\ forall a, In a l -> ~ covers_tag a t) \/
  exists before a after, l = before ++ a :: after /\ covers_tag a t /\ q = at_q a /\
    (forall b, In b l -> covers_tag b t -> (length (range_parts b) <= length (range_parts a))%nat) /\
    Forall (fun b => range_parts b <> range_parts a) before.

(** *** Values of headers that can be written *)
Definition version_ok (v : version) : Prop := 0 <= v_major v /\ 0 <= v_minor v.
Definition media_ok (m : media) : Prop :=
  is_token (m_type m) /\ is_token (m_sub m) /\ lower (m_type m) = m_type m /\ lower (m_sub m) = m_sub m /\
  good_params (m_params m).
Definition encoding_ok (e : encoding) : Prop :=
  is_token (te_token e) /\ lower (te_token e) = te_token e /\ good_params (te_params e) /\
  (te_token e = lit "chunked" -> te_params e = []).
(** Numbers between dots *)
Fixpoint dotted (l : list Z) : str :=
  match l with [] => [] | [n] => fmt n | n :: l' => fmt n ++ [46] ++ dotted l' end.
Definition subtag (s : str) : Prop := Forall token_char s /\ ~ In 45 s.
(** Times of day in GMT and time points *)
Definition utc (h m s : Z) : time := mkTime h (Some m) (Some s) (Some 0) (Some 0).
Definition clock_ok (h m s : Z) : Prop :=
  0 <= h < 24 /\ 0 <= m < 60 /\ 0 <= s <= 60 \/ h = 24 /\ m = 0 /\ s = 0.
Definition day_time (y m d h mi s : Z) : timepoint := mkTP (of_ymd y m d) (utc h mi s).
Definition accept_ok (a : accept) : Prop :=
  media_ok (a_range a) /\ Forall (fun e => fst e <> lit "q") (m_params (a_range a)) /\
  0 <= a_q a <= 1000 /\ good_params (a_ext a).
(** Dictionaries are the same if they have the same entries. *)
Definition same_media (a b : media) : Prop :=
  m_type a = m_type b /\ m_sub a = m_sub b /\ Permutation (m_params a) (m_params b).
Definition same_accept (a b : accept) : Prop :=
  same_media (a_range a) (a_range b) /\ a_q a = a_q b /\ Permutation (a_ext a) (a_ext b).
Definition atoken_ok (a : atoken) : Prop := is_token (at_token a) /\ 0 <= at_q a <= 1000.
Definition crange_ok (r : crange) : Prop :=
  match cr_first r, cr_last r with Some a, Some b => 0 <= a /\ 0 <= b | None, None => True | _, _ => False end /\
  match cr_total r with Some n => 0 <= n | None => True end.
(** The value of the last directive with the name *)
Fixpoint last_value (k : str) (args : list (str * cvalue)) : option cvalue :=
  match args with
  | [] => None
  | (n, v) :: l => match last_value k l with Some v' => Some v' | None => if str_eqb k (lower n) then Some v else None end
  end.
(** A directive, written *)
Definition cache_text (n : str) (v : cvalue) : str :=
  match v with
  | CNone => lower n
  | CTuple l => lower n ++ lit "=" ++ QuoteString (join (lit ", ") l) true
  | CSimple s => lower n ++ lit "=" ++ QuoteString s false
  end.
Definition range_ok (a : accept) : Prop := wf_range (a_range a) /\ NoDup (map fst (m_params (a_range a))).
Definition type_ok (m : media) : Prop := NoDup (map fst (m_params m)).
(** ISO-8859-1 is acceptable if not listed. *)
Definition charset_unlisted (t : str) : Z := if str_eqb (lower t) (lit "iso-8859-1") then 1000 else 0.
(** Encodings: identity, if not listed, is better than nothing. *)
Definition free_identity (l : list atoken) (t : str) : Prop :=
  lower t = lit "identity" /\ forall a, In a l -> ~ names a t /\ at_token a <> lit "*".

(** *** Characters in which only the syntax can go wrong: no control characters, no quotes,
    no comments *)
Definition plain_char (c : Z) : Prop := 32 <= c /\ c <> 127 /\ c <> 34 /\ c <> 40.
(** Success or a syntax error *)
Definition syntax_only {A} (r : result A) : Prop := match r with Err e => e = BadSyntax | Ok _ => True end.
