(** Model of the character level of the XML library:
    pyslet/pyslet/xml20081126/structures.py 60-141 (escaping) and 567-770
    (character classes, names, white space, CDATA sections),
    pyslet/pyslet/xmlnames20091208.py 17-26 (NCNames) and
    pyslet/pyslet/qtiv2/core.py 40-71 (ValidateIdentifier). *)
From Verif Require Import Py Uri CharClass.

(** ** Escaping *)

(** One step of the loop of EscapeCharData: structures.py 67-84.  The list [data]
    of the Python code has one string for each character. *)
Definition esc_char (c : Z) : str :=
  if c =? 38 then lit "&amp;"
  else if c =? 60 then lit "&lt;"
  else if c =? 62 then lit "&gt;"
  else if c =? 13 then lit "&#xD;"
  else [c].

Definition count (c : Z) (s : str) : nat := length (filter (Z.eqb c) s).

(** The loops that replace quotes in [data]: structures.py 87-90 and 94-97. *)
Definition esc_quote (q : Z) (r : str) (data : list str) : list str :=
  map (fun d => if str_eqb d [q] then r else d) data.

(** EscapeCharData: structures.py 60-99.  The Python code replaces quotes only if
    there are any, which makes no difference. *)
Definition EscapeCharData (src : str) (quote : bool) : str :=
  let data := map esc_char src in
  if quote then
    if (count 39 src <? count 34 src)%nat then
      let data := if (0 <? count 39 src)%nat then esc_quote 39 (lit "&apos;") data else data in
      [39] ++ concat data ++ [39]
    else
      let data := if (0 <? count 34 src)%nat then esc_quote 34 (lit "&quot;") data else data in
      [34] ++ concat data ++ [34]
  else concat data.

(** "%0wX": hexadecimal digits, at least [w] of them. *)
Fixpoint hex_fuel (fuel : nat) (n : Z) (acc : str) : str :=
  match fuel with
  | O => acc
  | S f => if n <? 16 then hexdigit n :: acc else hex_fuel f (n / 16) (hexdigit (n mod 16) :: acc)
  end.
Definition hex_digits (n : Z) : str := hex_fuel (S (Z.to_nat (Z.log2 n))) n [].
Definition fmt_X (w : nat) (n : Z) : str :=
  let s := hex_digits n in repeat 48 (w - length s) ++ s.

(** EscapeCharData7, one character: structures.py 117-138.  [q] is the quotation
    mark, if any, and [qs] its replacement. *)
Definition esc_char7 (q : option Z) (qs : str) (c : Z) : str :=
  if c >? 0x7F then
    if c >? 0xFF then
      if c >? 0xFFFF then
        if c >? 0xFFFFFF then lit "&#x" ++ fmt_X 8 c ++ lit ";"
        else lit "&#x" ++ fmt_X 6 c ++ lit ";"
      else lit "&#x" ++ fmt_X 4 c ++ lit ";"
    else lit "&#x" ++ fmt_X 2 c ++ lit ";"
  else if c =? 60 then lit "&lt;"
  else if c =? 38 then lit "&amp;"
  else if c =? 62 then lit "&gt;"
  else if c =? 13 then lit "&#xD;"
  else if match q with Some x => c =? x | None => false end then qs
  else [c].

(** EscapeCharData7: structures.py 102-141. *)
Definition EscapeCharData7 (src : str) (quote : bool) : str :=
  if quote then
    let '(q, qs) := if mem 39 src then (34, lit "&#x22;")
                    else if mem 34 src then (39, lit "&#x27;")
                    else (34, lit "&#x22;") in
    [q] ++ flat_map (esc_char7 (Some q) qs) src ++ [q]
  else flat_map (esc_char7 None []) src.

(** src.split(']]>'): the loop keeps the reversed current piece. *)
Fixpoint split_cdata (s : str) (cur : str) : list str :=
  match s with
  | 93 :: (93 :: 62 :: s2) as s1 => rev cur :: split_cdata s2 []
  | c :: s1 => split_cdata s1 (c :: cur)
  | [] => [rev cur]
  end.

(** EscapeCDSect: structures.py 753-769.  [split] never returns an empty list, so
    the last branch of the Python code is dead. *)
Definition EscapeCDSect (src : str) : str :=
  match split_cdata src [] with
  | d0 :: ds => lit "<!CDATA[[" ++ d0 ++
                flat_map (fun d => lit "]]>]]&gt;<!CDATA[[" ++ d) ds ++ lit "]]>"
  | [] => []
  end.

(** ** Character classes *)

(** Testing a character against a class built by the constructor of CharClass.
    The exceptions of the underlying model do not occur for the classes below (the
    lemmas using [class_covers] in XmlCharsProofs2.v). *)
Definition in_class (k : result cc) (c : Z) : bool :=
  match k with
  | Ok rs => match test rs (Some c) with Ok b => b | Err _ => false end
  | Err _ => false
  end.

(** IsChar: structures.py 567-574 (None, at the end of the input, gives False). *)
Definition IsChar (c : Z) : bool :=
  (c =? 9) || (c =? 10) || (c =? 13) || ((c >=? 0x20) && (c <=? 0xD7FF)) ||
  ((c >=? 0xE000) && (c <=? 0xFFFD)) || ((c >=? 0x10000) && (c <=? 0x10FFFF)).

(** structures.py 584 *)
Definition DiscouragedCharClass : result cc :=
  construct [ArgPair 0x7f 0x84; ArgPair 0x86 0x9f; ArgPair 0xfdd0 0xfdef].
(** IsDiscouraged: structures.py 586-591 *)
Definition IsDiscouraged (c : Z) : bool := in_class DiscouragedCharClass c.

(** IsS: structures.py 594-602 (the empty string and None give False). *)
Definition IsS (c : Z) : bool :=
  if c >? 0x20 then false else (c =? 0x20) || (c =? 9) || (c =? 0xA) || (c =? 0xD).

(** IsWhiteSpace: structures.py 604-609; ContainsS: 611-616. *)
Definition IsWhiteSpace (data : str) : bool := forallb IsS data.
Definition ContainsS (data : str) : bool := existsb IsS data.

(** StripLeadingS: structures.py 618-629. *)
Fixpoint StripLeadingS (data : str) : str :=
  match data with
  | c :: data' => if IsS c then StripLeadingS data' else data
  | [] => []
  end.

(** NormalizeSpace: structures.py 631-648; [sCount] 0: no space, 1: add space, 2:
    don't add space. *)
Fixpoint normalize_loop (sCount : Z) (data : str) : str :=
  match data with
  | [] => []
  | c :: data' =>
      if c =? 32 then normalize_loop (if sCount =? 0 then 1 else sCount) data'
      else (if sCount =? 1 then [32] else []) ++ c :: normalize_loop 0 data'
  end.
Definition NormalizeSpace (data : str) : str := normalize_loop 2 data.

(** CollapseSpace: structures.py 650-675, with the default test IsS. *)
Fixpoint collapse_loop (sMode : bool) (data : str) : str :=
  match data with
  | [] => []
  | c :: data' =>
      if IsS c then (if sMode then [] else [32]) ++ collapse_loop true data'
      else c :: collapse_loop false data'
  end.
Definition CollapseSpace (data : str) (sMode : bool) : str :=
  match collapse_loop sMode data with
  | [] => [32]
  | r => r
  end.

(** NameStartCharClass: structures.py 678-682. *)
Definition NameStartCharClass : result cc :=
  construct [ArgString (lit ":"); ArgPair 65 90; ArgString (lit "_"); ArgPair 97 122;
    ArgPair 0xc0 0xd6; ArgPair 0xd8 0xf6; ArgPair 0xf8 0x02ff; ArgPair 0x0370 0x037d;
    ArgPair 0x037f 0x1fff; ArgPair 0x200c 0x200d; ArgPair 0x2070 0x218f;
    ArgPair 0x2c00 0x2fef; ArgPair 0x3001 0xd7ff; ArgPair 0xf900 0xfdcf; ArgPair 0xfdf0 0xfffd].

(** IsNameStartChar: structures.py 684-697. *)
Definition IsNameStartChar (c : Z) : bool :=
  if c <=? 122 then
    if c >=? 97 then true
    else if c <=? 90 then if c >=? 65 then true else c =? 58
    else c =? 95
  else in_class NameStartCharClass c.

(** NameCharClass: structures.py 699-700. *)
Definition NameCharClass : result cc :=
  k <- NameStartCharClass ;;
  construct [ArgClass k; ArgString (lit "-"); ArgString (lit "."); ArgPair 48 57; ArgString [0xb7];
             ArgPair 0x300 0x36f; ArgPair 0x203f 0x2040].

(** IsNameChar: structures.py 702-723 (None and '' give False). *)
Definition IsNameChar (c : Z) : bool :=
  if c <=? 122 then
    if c >=? 97 then true
    else if c <=? 90 then
      if c >=? 65 then true
      else if c <=? 57 then if c >=? 48 then true else mem c (lit "-.")
      else c =? 58
    else c =? 95
  else in_class NameCharClass c.

(** IsValidName: structures.py 725-735. *)
Definition IsValidName (name : str) : bool :=
  match name with
  | c :: rest => IsNameStartChar c && forallb IsNameChar rest
  | [] => false
  end.

(** IsReservedName: structures.py 737-742; lower-casing of ASCII letters only. *)
Definition lower1 (c : Z) : Z := if (c >=? 65) && (c <=? 90) then c + 32 else c.
Definition IsReservedName (name : str) : bool :=
  match name with
  | _ :: _ => str_eqb (map lower1 (firstn 3 name)) (lit "xml")
  | [] => false
  end.

(** PubidCharClass: structures.py 745-746; IsPubidChar: 748-750. *)
Definition PubidCharClass : result cc :=
  construct [ArgString (lit " "); ArgString [13]; ArgString [10]; ArgPair 48 57; ArgPair 65 90; ArgPair 97 122;
             ArgString (lit "-'()+,./:=?;!*#@$_%")].
Definition IsPubidChar (c : Z) : bool := in_class PubidCharClass c.

(** IsValidNCName: xmlnames20091208.py 17-26. *)
Definition IsValidNCName (name : str) : bool :=
  match name with
  | c :: rest =>
      if negb (IsNameStartChar c) || (c =? 58) then false
      else forallb (fun c => negb (negb (IsNameChar c) || (c =? 58))) rest
  | [] => false
  end.

(** ** Identifiers *)

(** ValidateIdentifier: qtiv2/core.py 40-71. *)
Definition good_char (c : Z) : str :=
  if c =? 58 then lit "-" else if IsNameChar c then [c] else lit "_".
Definition ValidateIdentifier (value prefix : str) : str :=
  match value with
  | c :: _ =>
      (if negb (IsNameStartChar c) then prefix else if c =? 58 then prefix else []) ++
      flat_map good_char value
  | [] => prefix
  end.
