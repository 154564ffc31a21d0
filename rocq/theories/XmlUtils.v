(** Model of QTIMigration/lib/xmlutils.py: escaping of text, comments and path segments,
    and the tolerant tokenizer of HTML fragments.

    Simplifications: [unichr] is that of a build with 32-bit characters; the messages of
    exceptions and the warnings printed are left out. *)
From Verif Require Import Py Iso.

(** string.ascii_letters, string.digits *)
Definition is_letter (c : Z) : bool := ((c >=? 65) && (c <=? 90)) || ((c >=? 97) && (c <=? 122)).
Definition is_digit (c : Z) : bool := (c >=? 48) && (c <=? 57).

(** xmlutils.py 32-36 NMTOKEN_CHARS, NMSTART_CHARS, pchar, scheme_char *)
Definition nmtoken_char (c : Z) : bool := is_letter c || is_digit c || mem c (lit "_-.:").
Definition nmstart_char (c : Z) : bool := is_letter c || (c =? 95).
Definition pchar (c : Z) : bool := is_letter c || is_digit c || mem c (lit "-_.!~*':@&=+$,").
Definition scheme_char (c : Z) : bool := is_letter c || is_digit c || mem c (lit "+-.").

(** xmlutils.py 40-54 XMLString *)
Definition xml_char (c : Z) : str :=
  if c =? 38 then lit "&amp;"
  else if c =? 60 then lit "&lt;"
  else if c =? 62 then lit "&gt;"
  else if c >? 128 then lit "&#" ++ fmt c ++ lit ";"
  else [c].
Fixpoint XMLString (src : str) : str :=
  match src with
  | [] => []
  | c :: s => xml_char c ++ XMLString s
  end.

(** xmlutils.py 56-57 EncodeComment: [src.replace('--','- - ')] *)
Fixpoint EncodeComment (src : str) : str :=
  match src with
  | [] => []
  | c :: s =>
      match s with
      | [] => [c]
      | d :: s' =>
          if (c =? 45) && (d =? 45) then lit "- - " ++ EncodeComment s'
          else c :: EncodeComment s
      end
  end.

(** [string.split(uri,':')]: the part before the first colon, and whether there is one *)
Fixpoint before_colon (uri : str) : str * bool :=
  match uri with
  | [] => ([], false)
  | c :: s => if c =? 58 then ([], true) else let '(a, b) := before_colon s in (c :: a, b)
  end.

(** xmlutils.py 59-68 RelativeURL *)
Definition RelativeURL (uri : str) : result bool :=
  let '(scheme, colon) := before_colon uri in
  if colon then
    match scheme with
    | [] => Err IndexError
    | c :: _ =>
        if negb (is_letter c) then Ok true
        else Ok (negb (forallb scheme_char scheme))
    end
  else Ok true.

(** [string.zfill(hex(ord(c))[2:],2)] for an octet *)
Definition hexlow (n : Z) : Z := if n <? 10 then 48 + n else 97 + (n - 10).

(** xmlutils.py 70-84 EncodePathSegment *)
Definition encode_char (c : Z) : str :=
  if pchar c then [c]
  else if c >? 255 then [63]
  else [37; hexlow (c / 16); hexlow (c mod 16)].
Fixpoint EncodePathSegment (s : str) : str :=
  match s with
  | [] => []
  | c :: s' => encode_char c ++ EncodePathSegment s'
  end.

Definition is_hex (c : Z) : bool :=
  is_digit c || ((c >=? 65) && (c <=? 70)) || ((c >=? 97) && (c <=? 102)).
Definition hex_value (c : Z) : Z :=
  if is_digit c then c - 48 else if c <=? 70 then c - 65 + 10 else c - 97 + 10.

(** xmlutils.py 86-103 DecodePathSegment.  [h] is hexStr: None for '', otherwise the hex
    digits after "0x" (none or one between two characters).  The string is a byte string:
    for a unicode string the concatenation with [chr(...)] above 127 would raise
    UnicodeDecodeError, which is not modelled. *)
Fixpoint decode_loop (h : option str) (s : str) : str :=
  match s with
  | [] => []
  | c :: s' =>
      if c =? 37 then decode_loop (Some []) s'
      else match h with
      | Some ds =>
          if is_hex c then
            match ds with
            | [] => decode_loop (Some [c]) s'
            | d :: _ => hex_value d * 16 + hex_value c :: decode_loop None s'
            end
          else 37 :: ds ++ decode_loop None s'
      | None => c :: decode_loop None s'
      end
  end.
Definition DecodePathSegment (s : str) : str := decode_loop None s.

(** *** xmlutils.py 108-267 class XMLParser.  [self.c] is the first character of the rest
    of the input, Consume drops it. *)

(** xmlutils.py 106 SCHARS *)
Definition IsS (c : Z) : bool := mem c [32; 9; 13; 10].

(** xmlutils.py 109-119 the default entityMap *)
Definition entityMap : list (str * Z) :=
  [(lit "quot", 34); (lit "apos", 39); (lit "amp", 38); (lit "lt", 60); (lit "gt", 62);
   (lit "nbsp", 160)].
Fixpoint assoc {A} (k : str) (m : list (str * A)) : option A :=
  match m with
  | [] => None
  | (k', v) :: m' => if str_eqb k k' then Some v else assoc k m'
  end.

(** A tag is a Python dict with '.name', '.type' and the attributes. *)
Inductive tag_type : Set := STag | ETag | EmptyElemTag.
Record tag := mkTag { tg_name : str; tg_type : tag_type; tg_attrs : list (str * str) }.
Inductive token : Set := Text (s : str) | Tag (t : tag).

(** [tag[aName]=aValue] *)
Fixpoint set_attr (k v : str) (m : list (str * str)) : list (str * str) :=
  match m with
  | [] => [(k, v)]
  | (k', v') :: m' => if str_eqb k k' then (k, v) :: m' else (k', v') :: set_attr k v m'
  end.

(** xmlutils.py 226-243 ParseName; [started] is [name or numbersAllowed] *)
Fixpoint ParseName (started : bool) (s : str) : str * str :=
  match s with
  | [] => ([], [])
  | c :: s' =>
      if IsS c then ([], s)
      else if mem c (lit "<>/;=") then ([], s)
      else if (if started then nmtoken_char c || (c >? 128) else nmstart_char c || (c >? 128))
      then let '(n, r) := ParseName true s' in (c :: n, r)
      else ([], s)
  end.

(** xmlutils.py 245-250 SkipSpace *)
Fixpoint SkipSpace (s : str) : str :=
  match s with
  | [] => []
  | c :: s' => if IsS c then SkipSpace s' else s
  end.

(** xmlutils.py 252-257 ParseChar *)
Definition ParseChar (x : Z) (s : str) : option str :=
  match s with
  | c :: s' => if c =? x then Some s' else None
  | [] => None
  end.

(** Python 2's [int(s)] and [int(s,16)] for a string of name characters: an optional
    minus sign, for base 16 an optional "0x", then digits.  Digits outside ASCII, which
    Python accepts, are not modelled. *)
Fixpoint digits_value (base : Z) (v : Z) (s : str) : result Z :=
  match s with
  | [] => Ok v
  | c :: s' =>
      if c >? 128 then Err Unmodelled
      else if (if base =? 16 then is_hex c else is_digit c)
      then digits_value base (v * base + hex_value c) s'
      else Err ValueError
  end.
Definition int_digits (base : Z) (s : str) : result Z :=
  match s with
  | [] => Err ValueError
  | a :: b :: s' =>
      if (base =? 16) && (a =? 48) && ((b =? 120) || (b =? 88)) then
        match s' with [] => Err ValueError | _ => digits_value base 0 s' end
      else digits_value base 0 s
  | _ => digits_value base 0 s
  end.
Definition py_int (base : Z) (s : str) : result Z :=
  match s with
  | c :: s' => if c =? 45 then v <- int_digits base s' ;; Ok (- v) else int_digits base s
  | [] => Err ValueError
  end.
Definition unichr (n : Z) : result Z :=
  if (n <? -2147483648) || (n >? 2147483647) then Err OverflowError
  else if (n <? 0) || (n >? 0x10FFFF) then Err ValueError
  else Ok n.

(** [name.lower()] on ASCII letters; other characters cannot make a key of entityMap *)
Definition lower (s : str) : str :=
  map (fun c => if (c >=? 65) && (c <=? 90) then c + 32 else c) s.

(** xmlutils.py 213-224 ParseReference, after the '&' *)
Definition skip_semicolon (s : str) : str :=
  match ParseChar 59 s with Some s' => s' | None => s end.
Definition ParseReference (s : str) : result (Z * str) :=
  match ParseChar 35 s with
  | Some s1 =>
      match ParseChar 120 s1 with
      | Some s2 =>
          let '(n, r) := ParseName true s2 in
          v <- py_int 16 n ;; u <- unichr v ;; Ok (u, skip_semicolon r)
      | None =>
          let '(n, r) := ParseName true s1 in
          v <- py_int 10 n ;; u <- unichr v ;; Ok (u, skip_semicolon r)
      end
  | None =>
      let '(n, r) := ParseName false s in
      Ok (match assoc (lower n) entityMap with Some v => v | None => 63 end, skip_semicolon r)
  end.

(** xmlutils.py 190-211 ParseAttValue: the loop after the delimiter.  Every turn consumes
    a character: the fuel is the length of the input. *)
Fixpoint att_loop (fuel : nat) (delim : Z) (s : str) : result (str * str) :=
  match fuel with
  | O => Err OutOfFuel
  | S f =>
      match s with
      | [] => Err XMLException
      | c :: s' =>
          if c =? delim then Ok ([], s')
          else if c =? 38 then
            '(v, r) <- ParseReference s' ;;
            '(vs, r') <- att_loop f delim r ;; Ok (v :: vs, r')
          else
            '(vs, r') <- att_loop f delim s' ;; Ok (c :: vs, r')
      end
  end.
Definition ParseAttValue (s : str) : result (str * str) :=
  match s with
  | c :: s' =>
      if (c =? 34) || (c =? 39) then att_loop (S (length s')) c s' else Err XMLException
  | [] => Err XMLException
  end.

(** xmlutils.py 148-179 ParseTag: the loop over the attributes *)
Fixpoint tag_loop (fuel : nat) (name : str) (attrs : list (str * str)) (s : str)
  : result (tag * str) :=
  match fuel with
  | O => Err OutOfFuel
  | S f =>
      let s := SkipSpace s in
      match s with
      | [] => Err XMLException
      | c :: s' =>
          if c =? 62 then Ok (mkTag name STag attrs, s')
          else if c =? 47 then
            match ParseChar 62 s' with
            | Some s'' => Ok (mkTag name EmptyElemTag attrs, s'')
            | None => Err XMLException
            end
          else
            let '(aName, r) := ParseName false s in
            match aName with
            | [] => Err XMLException
            | _ =>
                match ParseChar 61 (SkipSpace r) with
                | None => Err XMLException
                | Some r' =>
                    '(aValue, r'') <- ParseAttValue (SkipSpace r') ;;
                    tag_loop f name (set_attr aName aValue attrs) r''
                end
            end
      end
  end.
(** xmlutils.py 148-179 ParseTag, after the '<' *)
Definition ParseTag (s : str) : result (token * str) :=
  let '(name, r) := ParseName false s in
  match name with
  | [] => Ok (Text [60], r)
  | _ => '(t, r') <- tag_loop (S (length r)) name [] r ;; Ok (Tag t, r')
  end.

(** xmlutils.py 181-188 ParseETag, after the "</" *)
Definition ParseETag (s : str) : result (token * str) :=
  let '(name, r) := ParseName false s in
  match ParseChar 62 (SkipSpace r) with
  | Some r' => Ok (Tag (mkTag name ETag []), r')
  | None => Err XMLException
  end.

Definition flush (chars : str) : list token :=
  match chars with [] => [] | _ => [Text chars] end.

(** xmlutils.py 121-146 TokenizeString; [chars] in order *)
Fixpoint tok_loop (fuel : nat) (chars : str) (s : str) : result (list token) :=
  match fuel with
  | O => Err OutOfFuel
  | S f =>
      match s with
      | [] => Ok (flush chars)
      | c :: s' =>
          if c =? 60 then
            '(t, r) <- match ParseChar 47 s' with
                       | Some s'' => ParseETag s''
                       | None => ParseTag s'
                       end ;;
            ts <- tok_loop f [] r ;;
            Ok (flush chars ++ t :: ts)
          else if c =? 38 then
            '(v, r) <- ParseReference s' ;;
            tok_loop f (chars ++ [v]) r
          else tok_loop f (chars ++ [c]) s'
      end
  end.
Definition TokenizeString (input : str) : result (list token) :=
  tok_loop (S (length input)) [] input.
